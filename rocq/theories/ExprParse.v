(** The parser of expressions and conditions, cobc/typeck.c 1735-2213, on the
    tokens pushed by cobc/parser.y 6738-6803, with cb_build_binary_op,
    cobc/tree.c 2231-2298. *)
From Verif Require Import Base Compute.

(** ** Trees *)
Inductive rel := REq | RNe | RLt | RGt | RLe | RGe.

(** What an 'x' token may be: ZERO (cb_zero), another numeric operand (a literal,
    item or function), an operand of another class that is not boolean, a
    condition-name (level 88).  Not modelled: pointers, table indexes and
    condition-names of screens. *)
Inductive operand := OZero | ONum (leaf : expr) | OText (n : nat) | OCond (n : nat).

(** Classes tested by name: NUMERIC, ALPHABETIC, -LOWER, -UPPER, OMITTED, and
    the class-names of SPECIAL-NAMES. *)
Inductive cname := CNumeric | CAlpha | CLower | CUpper | COmitted | CUser (n : nat).

(** TErr is cb_error_node, TNull a null pointer; TPar is the '@' node. *)
Inductive tree :=
| TErr
| TNull
| TLeaf (o : operand)
| TArith (op : aop) (x y : tree)
| TRel (r : rel) (x y : tree)
| TNot (x : tree)
| TAnd (x y : tree)
| TOr (x y : tree)
| TClass (c : cname) (x : tree)
| TPar (x : tree).

(** CB_TREE_CLASS (x) == CB_CLASS_BOOLEAN, CB_TREE_CATEGORY (x) ==
    CB_CATEGORY_NUMERIC: tree.c 486-560, 2231-2298, 2317-2322. *)
Fixpoint is_bool (t : tree) : bool :=
  match t with
  | TLeaf (OCond _) | TRel _ _ _ | TNot _ | TAnd _ _ | TOr _ _ | TClass _ _ => true
  | TPar x => is_bool x
  | _ => false
  end.
Fixpoint is_num (t : tree) : bool :=
  match t with
  | TLeaf OZero | TLeaf (ONum _) | TArith _ _ _ => true
  | TPar x => is_num x
  | _ => false
  end.
Definition is_err (t : tree) : bool := match t with TErr => true | _ => false end.

(** ** Tokens of the stack, and their priorities: typeck.c 1745-1762 *)
Inductive tok := KX | KA (o : aop) | KR (r : rel) | KNot | KAnd | KOr | KOpen | KClose | K0.
Definition prio (t : tok) : nat :=
  match t with
  | KX => 0 | KA APow => 1 | KA AMul => 2 | KA ADiv => 2 | KA AAdd => 3 | KA ASub => 3
  | KR _ => 4 | KNot => 5 | KAnd => 6 | KOr => 7 | KClose => 8 | KOpen => 9 | K0 => 10
  end%nat.

(** expr_stack (top first; the three dummies at the bottom), expr_lh, expr_op,
    whether cb_error has been called, whether the compiler has aborted (an
    unexpected operator, or a null tree whose class is asked for). *)
Record st := mkSt { stk : list (tok * tree); lh : tree; eop : option rel; bad : bool; dead : bool }.
Definition set_stk (s : st) (l : list (tok * tree)) : st := mkSt l (lh s) (eop s) (bad s) (dead s).
Definition set_bad (s : st) (b : bool) : st := mkSt (stk s) (lh s) (eop s) (bad s || b) (dead s).
Definition set_dead (s : st) : st := mkSt (stk s) (lh s) (eop s) (bad s) true.
Definition set_lh (s : st) (t : tree) : st := mkSt (stk s) t (eop s) (bad s) (dead s).
Definition set_eop (s : st) (r : rel) : st := mkSt (stk s) (lh s) (Some r) (bad s) (dead s).

(** cb_build_binary_op, tree.c 2231-2298: the node, and whether cb_error was
    called.  Not modelled: enable-zero-division-error. *)
Definition build_arith (op : aop) (x y : tree) : tree * bool :=
  if is_num x && is_num y then (TArith op x y, false) else (TErr, true).
Definition build_not (x : tree) : tree * bool := if is_bool x then (TNot x, false) else (TErr, true).
Definition build_log (isand : bool) (x y : tree) : tree * bool :=
  if is_bool x && is_bool y then (if isand then TAnd x y else TOr x y, false) else (TErr, true).
(** With expr_lh and expr_op as they are: expr_op = 0 aborts. *)
Definition build_abbr (s : st) (v : tree) : st * tree :=
  match eop s with
  | Some r => (s, TRel r (lh s) v)
  | None => (set_dead s, TErr)
  end.
Definition has_lh (s : st) : bool := match lh s with TNull => false | _ => true end.
Definition is_88 (t : tree) : bool := match t with TLeaf (OCond _) => true | _ => false end.

(** ** expr_reduce, typeck.c 1774-1906 *)

(** One pass of the loop: go on with a state, or leave the function. *)
Inductive pass := Go (s : st) | Leave (s : st).
Definition reduce_arith (s : st) (op : aop) (x y : tree) (rest : list (tok * tree)) : pass :=
  let '(t, e) := build_arith op x y in Go (set_bad (set_stk s ((KX, t) :: rest)) e).

Definition reduce_1 (s : st) : pass :=
  match stk s with
  | (t1, v1) :: (t2, v2) :: rest =>
      match t2 with
      | KX | KOpen | KClose => Leave s
      | KA op =>
          match t1, rest with
          | KX, (KX, v3) :: rest' => reduce_arith s op v3 v1 rest'
          | _, _ => Leave s
          end
      | KNot =>
          match t1 with
          | KX =>
              let '(s1, w) := if has_lh s && negb (is_bool v1) then build_abbr s v1 else (s, v1) in
              let '(t, e) := build_not w in
              Go (set_bad (set_stk s1 ((KX, t) :: rest)) e)
          | _ => Leave s
          end
      | KAnd | KOr =>
          match t1, rest with
          | KX, (KX, v3) :: rest' =>
              let '(s1, w1) := if has_lh s && negb (is_bool v1) then build_abbr s v1 else (s, v1) in
              let '(s2, w3) := if has_lh s && negb (is_bool v3) then build_abbr s1 v3 else (s1, v3) in
              let '(t, e) := build_log (match t2 with KAnd => true | _ => false end) w3 w1 in
              Go (set_bad (set_stk s2 ((KX, t) :: rest')) e)
          | _, _ => Leave s
          end
      | KR r =>
          match t1, rest with
          | KX, (KX, v3) :: rest' =>
              if is_err v3 || is_err v1 then Go (set_stk s ((KX, TErr) :: rest'))
              else
                let s1 := set_lh s v3 in
                if is_88 v3 || is_88 v1 then Leave (set_stk s1 ((t1, v1) :: (t2, v2) :: (KX, TErr) :: rest'))
                else
                  Go (set_eop (set_stk s1 ((KX, if is_bool v1 then v1 else TRel r v3 v1) :: rest')) r)
          | KX, (KAnd, v3) :: rest' | KX, (KOr, v3) :: rest' =>
              if is_err v1 then Go (set_stk s ((KR r, TErr) :: rest))
              else Go (set_eop (set_stk s ((KX, if is_bool v1 then v1 else TRel r (lh s) v1) :: rest)) r)
          | _, _ => Leave s
          end
      | K0 => Leave s   (* TOKEN (-1) != 'x', or TOKEN (-3) is a dummy *)
      end
  | _ => Leave s
  end.

Definition tok2 (s : st) : tok := match stk s with _ :: (t, _) :: _ => t | _ => K0 end.
Definition tok1 (s : st) : tok := match stk s with (t, _) :: _ => t | _ => K0 end.
Definition val1 (s : st) : tree := match stk s with (_, v) :: _ => v | _ => TNull end.

(** The special case after the loop, 1899-1903. *)
Definition op_or_x_and (s : st) (t : tok) : st :=
  match t, stk s with
  | KAnd, (t1, v1) :: (KOr, v2) :: rest =>
      match v1 with
      | TNull => set_dead s
      | _ => if is_bool v1 then s
             else let '(s1, w) := build_abbr s v1 in set_stk s1 ((KX, w) :: (KOr, v2) :: rest)
      end
  | _, _ => s
  end.

Fixpoint reduce_loop (fuel : nat) (t : tok) (s : st) : st :=
  if (prio (tok2 s) <=? prio t)%nat then
    match fuel with
    | O => s
    | S n => match reduce_1 s with Leave s' => s' | Go s' => reduce_loop n t s' end
    end
  else op_or_x_and s t.
(** Every pass that goes on shortens the stack, except the one that leaves an
    error node under a relational operator and an AND or OR (it drops one
    entry too); the fuel is never used up. *)
Definition reduce (t : tok) (s : st) : st := reduce_loop (length (stk s)) t s.

(** ** cb_expr_shift, typeck.c 1908-2067 *)
Definition push (t : tok) (v : tree) (s : st) : st := set_stk s ((t, v) :: stk s).
Definition pop (s : st) : st := set_stk s (tl (stk s)).
Definition set_val1 (s : st) (v : tree) : st := set_stk s (match stk s with (t, _) :: r => (t, v) :: r | [] => [] end).
Definition negate (s : st) : st := let '(t, e) := build_not (val1 s) in set_bad (set_val1 s t) e.

(** cb_expr_shift_sign, 1908-1925, and cb_expr_shift_class, 1927-1944. *)
Definition have_not (s : st) : bool := match tok1 s with KNot => true | _ => false end.
Definition shift_test (mk : tree -> tree) (s : st) : st :=
  let n := have_not s in
  let s1 := reduce (KR REq) (if n then pop s else s) in
  match tok1 s1 with
  | KX => let s2 := set_val1 s1 (mk (val1 s1)) in if n then negate s2 else s2
  | _ => s1
  end.
Definition shift_sign (r : rel) : st -> st := shift_test (fun v => TRel r v (TLeaf OZero)).
Definition shift_class (c : cname) : st -> st := shift_test (TClass c).

(** The unary sign, 1963-1969, and the push. *)
Definition put_x (v : tree) (s : st) : st :=
  match tok1 s, tok2 s with
  | KA AAdd, KX | KA ASub, KX => push KX v (reduce KX s)
  | KA AAdd, _ => let s1 := pop s in push KX v (reduce KX s1)
  | KA ASub, _ =>
      let '(w, e) := build_arith ASub (TLeaf OZero) v in
      let s1 := set_bad (pop s) e in push KX w (reduce KX s1)
  | _, _ => push KX v (reduce KX s)
  end.
Definition shift_x (o : operand) (s : st) : st :=
  match o, tok1 s with
  | OZero, KX | OZero, KNot => shift_sign REq s
  | _, _ => put_x (TLeaf o) s
  end.

(** '(' : 1972-1988. *)
Definition shift_open (s : st) : st :=
  let s1 := match tok1 s with
            | KR r => let s' := set_eop s r in
                      match stk s with _ :: (KX, v) :: _ => set_lh s' v | _ => s' end
            | _ => s
            end in
  push KOpen TNull (reduce KOpen s1).

(** ')' : 1990-1999. *)
Definition shift_close (s : st) : st :=
  let s1 := reduce KClose s in
  match tok2 s1 with
  | KOpen =>
      match val1 s1 with
      | TNull => set_dead s1
      | v => put_x (TPar v) (pop (pop s1))
      end
  | _ => push KClose TNull (reduce KClose s1)
  end.

(** Operators: 2001-2066. *)
Definition negated (r : rel) : rel :=
  match r with REq => RNe | RNe => REq | RLt => RGe | RGt => RLe | RLe => RGt | RGe => RLt end.
Definition shift_rel (r : rel) (s : st) : st :=
  let '(r1, s1) :=
    match r, stk s with
    | REq, (KOr, _) :: (KR RLt, _) :: rest => (RLe, set_stk s rest)
    | REq, (KOr, _) :: (KR RGt, _) :: rest => (RGe, set_stk s rest)
    | _, _ => (r, s)
    end in
  let '(r2, s2) := if have_not s1 then (negated r1, pop s1) else (r1, s1) in
  push (KR r2) TNull (reduce (KR r2) s2).
Definition shift_op (t : tok) (s : st) : st := push t TNull (reduce t s).

(** ** cb_build_expr, typeck.c 2146-2213 *)
(** The tokens pushed by the grammar. *)
Inductive inp :=
| IX (o : operand)              (* an operand *)
| IClass (c : cname)            (* NUMERIC, ..., a class-name *)
| IPositive | INegative
| IArith (o : aop)
| IRel (r : rel)
| INot | IAnd | IOr | IOpen | IClose.

Definition shift (s : st) (i : inp) : st :=
  match i with
  | IX o => shift_x o s
  | IClass c => shift_class c s
  | IPositive => shift_sign RGt s
  | INegative => shift_sign RLt s
  | IArith o => shift_op (KA o) s
  | IRel r => shift_rel r s
  | INot => shift_op KNot s
  | IAnd => shift_op KAnd s
  | IOr => shift_op KOr s
  | IOpen => shift_open s
  | IClose => shift_close s
  end.

(** expr_expand, 2069-2089: parentheses are removed, except in the argument of a
    class test. *)
Fixpoint expand_par (t : tree) : tree :=
  match t with
  | TArith op x y => TArith op (expand_par x) (expand_par y)
  | TRel r x y => TRel r (expand_par x) (expand_par y)
  | TNot x => TNot (expand_par x)
  | TAnd x y => TAnd (expand_par x) (expand_par y)
  | TOr x y => TOr (expand_par x) (expand_par y)
  | TPar x => expand_par x
  | _ => t
  end.

Definition start : st := mkSt [(K0, TNull); (K0, TNull); (K0, TNull)] TNull None false false.

(** The tree; or an error was reported; or the compiler stopped abnormally. *)
Inductive parsed := Accepted (t : tree) | Rejected | Crashed.

(** cb_expr_finish, 2091-2113. *)
Definition finish (s : st) : parsed :=
  let s1 := reduce K0 s in
  if dead s1 then Crashed
  else
    match stk s1 with
    | [(KX, v); _; _; _] =>
        match v with
        | TNull => Rejected
        | _ => if bad s1 || is_err (expand_par v) then Rejected else Accepted (expand_par v)
        end
    | _ => Rejected
    end.
Definition parse (l : list inp) : parsed := finish (fold_left shift l start).
