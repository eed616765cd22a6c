(** Conditions as cobc compiles them (cb_build_cond, cobc/typeck.c 2495-2843)
    and as the generated C evaluates them (output_cond, cobc/codegen.c
    1405-1510). *)
From Verif Require Import Base Field Sign Decimal Numeric PackedInt DispInt BinOps Move Edited MoveAll Compare EditStore Compute ExprParse.

(** Items of the program and decimal registers, and the static state of
    cob_cmp_packed. *)
Record cst := mkCst { cmach : mach; cpack : cmp_state }.
Definition citems (s : cst) : list field := mi (cmach s).
Definition set_items (s : cst) (l : list field) : cst := mkCst (mkMach (mr (cmach s)) l (mx (cmach s))) (cpack s).
Definition set_pack (s : cst) (p : cmp_state) : cst := mkCst (cmach s) p.

(** cob_zero: common.c, an ALL literal "0". *)
Definition zero_field : field := mkField (mkAttr TAlnumAll 0 0 false false false false false false false []) [48].

(** An operand that is not an expression, as a field. *)
Definition leaf_field (items : list field) (e : expr) : field :=
  match e with
  | EZero | EBin _ _ _ => zero_field
  | ELit s ds sc => lit_field s ds sc
  | ERef i | EFun i => nth i items (mkField alnum_attr [])
  end.
Definition put_leaf (items : list field) (e : expr) (f : field) : list field :=
  match e with ERef i | EFun i => set_nth i f items | _ => items end.
Definition is_zero_const (e : expr) : bool := match e with EZero => true | _ => false end.

(** cob_cmp_int and cob_cmp_uint, numeric.c 1372-1391, on an operand. *)
Definition cmp_int_leaf (m : cfg) (s : cst) (x : expr) (n : Z) : outcome (Z * cst) :=
  do r <- set_field m (leaf_field (citems s) x);
  Ok (dec_cmp (fst r) (mkDec n 0), set_items s (put_leaf (citems s) x (snd r))).

(** cob_cmp on two operands. *)
Definition cmp_leaves (m : cfg) (col : option (list Z)) (s : cst) (x y : expr) : outcome (Z * cst) :=
  do r <- cob_cmp m col (mkOpnd (leaf_field (citems s) x) (is_zero_const x)) (mkOpnd (leaf_field (citems s) y) (is_zero_const y));
  let '(c, f, g) := r in Ok (c, set_items s (put_leaf (put_leaf (citems s) x f) y g)).

(** cb_chk_num_cond, typeck.c 2625-2666. *)
Definition plain_display (f : field) : bool :=
  match a_type (fa f) with TDisplay => negb (a_sign (fa f)) | _ => false end.
Definition num_cond (items : list field) (x y : expr) : bool :=
  match x, y with
  | ERef i, ERef j =>
      let f := nth i items (mkField alnum_attr []) in let g := nth j items (mkField alnum_attr []) in
      plain_display f && plain_display g && (f_size f =? f_size g)%nat && (a_scale (fa f) =? a_scale (fa g))
  | _, _ => false
  end.

(** cb_fits_int, tree.c 629-675. *)
Definition leaf_fits (items : list field) (y : expr) : bool :=
  match y with
  | ELit _ ds sc => (sc <=? 0) && (length ds <? 10)%nat
  | ERef i => fits_int (nth i items (mkField alnum_attr []))
  | _ => false
  end.

(** The C integer computed for an operand (cb_build_cast_integer). *)
Definition leaf_int (m : cfg) (s : cst) (y : expr) : outcome (Z * cst) :=
  match y with
  | EZero => Ok (0, s)
  | ELit sg ds _ => Ok (lit_int sg ds, s)
  | ERef i => do r <- output_integer m (leaf_field (citems s) y); Ok (fst r, set_items s (put_leaf (citems s) y (snd r)))
  | _ => NotModelled
  end.
Definition unsigned_binary (items : list field) (y : expr) : bool :=
  match y with
  | ERef i => match a_type (fa (nth i items (mkField alnum_attr []))) with TBinary => negb (a_sign (fa (nth i items (mkField alnum_attr [])))) | _ => false end
  | _ => false
  end.

(** cb_build_optim_cond, typeck.c 2529-2623: the int is the second argument of
    the function called.  Not modelled: index items, subscripted operands
    addressed differently. *)
Definition optim_cond (m : cfg) (s0 : cst) (x y : expr) : outcome (Z * cst) :=
  do r <- leaf_int m s0 y;
  let s := snd r in
  if unsigned_binary (citems s0) y then cmp_int_leaf m s x (fst r mod 2 ^ 32)
  else
    let n := s32 (fst r) in
    match x with
    | ERef i =>
        let f := leaf_field (citems s) x in
        let a := fa f in
        if negb (a_scale a =? 0) then cmp_int_leaf m s x n
        else
          match a_type a with
          | TPacked =>
              if a_digits a <? 10 then do c <- cmp_packed_int f n; Ok (c, s)
              else do c <- cmp_packed (cpack s) f n; Ok (fst c, set_pack s (snd c))
          | TDisplay =>
              if a_lead a || a_sep a then cmp_int_leaf m s x n
              else if (f_size f <? 10)%nat then
                do c <- (if a_sign a then cmp_sign_numdisp m 32 (fd f) n else cmp_numdisp 32 (fd f) n); Ok (c, s)
              else if (f_size f <? 19)%nat then
                do c <- (if a_sign a then cmp_sign_numdisp m 64 (fd f) n else cmp_numdisp 64 (fd f) n); Ok (c, s)
              else cmp_int_leaf m s x n
          | TBinary => Ok (cmp_binary (a_sign a) (a_swap a) (fd f) n, s)
          | _ => cmp_int_leaf m s x n
          end
    | _ => cmp_int_leaf m s x n
    end.

(** A relation of two numeric operands, typeck.c 2771-2839.  [debug]: subscript
    checks are compiled in.  Registers 0 and 1 are d1 and d2; cob_decimal_cmp
    also aligns them (not recorded: they are not read again). *)
Definition is_bin (e : expr) : bool := match e with EBin _ _ _ => true | _ => false end.
Definition rel_num (m : cfg) (debug alpha : bool) (col : option (list Z)) (s : cst) (x y : expr) : outcome (Z * cst) :=
  if is_bin x || is_bin y then
    do k <- exec m (cmach s) (expand (citems s) 2 0 x ++ expand (citems s) 2 1 y);
    Ok (dec_cmp (mr k 0%nat) (mr k 1%nat), mkCst k (cpack s))
  else if debug then cmp_leaves m col s x y
  else if num_cond (citems s) x y then
    Ok (cmp_bytes (fd (leaf_field (citems s) x)) (fd (leaf_field (citems s) y)), s)
  else if leaf_fits (citems s) y then optim_cond m s x y
  else
    match x, y with
    | ELit _ dx _, ELit _ dy _ =>
        if negb alpha && (length dx =? length dy)%nat then Ok (cmp_bytes (map (fun d => 48 + d) dx) (map (fun d => 48 + d) dy), s)
        else cmp_leaves m col s x y
    | _, EZero => optim_cond m s x y
    | _, _ => cmp_leaves m col s x y
    end.

(** A relation of two texts (items or alphanumeric literals: items of the
    program that nothing changes), 2798-2839.  [alpha]: the program declares
    alphabets. *)
Definition chk_alpha (f : field) : bool := match a_type (fa f) with TAlnum | TGroup => true | _ => false end.
Definition rel_text (m : cfg) (debug alpha : bool) (col : option (list Z)) (s : cst) (i j : nat) : outcome (Z * cst) :=
  let f := nth i (citems s) (mkField alnum_attr []) in
  let g := nth j (citems s) (mkField alnum_attr []) in
  if negb debug && negb alpha && chk_alpha f && chk_alpha g && (f_size f =? f_size g)%nat then Ok (cmp_bytes (fd f) (fd g), s)
  else
    do r <- cob_cmp m col (Compare.item f) (Compare.item g);
    let '(c, f', g') := r in Ok (c, set_items s (set_nth j g' (set_nth i f' (citems s)))).

(** Numeric operand trees. *)
Fixpoint expr_of (t : tree) : option expr :=
  match t with
  | TLeaf OZero => Some EZero
  | TLeaf (ONum l) => Some l
  | TArith op x y => match expr_of x, expr_of y with Some a, Some b => Some (EBin op a b) | _, _ => None end
  | _ => None
  end.

(** The comparison with 0, codegen.c 1437-1466. *)
Definition rel_test (r : rel) (c : Z) : bool :=
  match r with
  | REq => c =? 0 | RNe => negb (c =? 0) | RLt => c <? 0 | RLe => c <=? 0 | RGt => 0 <? c | RGe => 0 <=? c
  end.

(** ** Condition-names: build_cond_88, typeck.c 2495-2526 *)
Inductive value88 := VOne (y : operand) | VThru (lo hi : operand).
Record name88 := mkName { n_parent : operand; n_values : list value88 }.
Definition cond_value (x : operand) (v : value88) : tree :=
  match v with
  | VOne y => TRel REq (TLeaf x) (TLeaf y)
  | VThru lo hi => TAnd (TRel RLe (TLeaf lo) (TLeaf x)) (TRel RLe (TLeaf x) (TLeaf hi))
  end.
Definition cond_88 (n : name88) : tree :=
  match n_values n with
  | [] => TNull
  | v :: r => fold_left (fun c w => TOr c (cond_value (n_parent n) w)) r (cond_value (n_parent n) v)
  end.

(** ** Evaluation: cb_build_cond and output_cond together; && and || do not
    evaluate the right-hand side in vain.  Not modelled: numbers compared with
    texts, user-defined classes. *)
Section Eval.
Variables (m : cfg) (debug alpha : bool) (col : option (list Z)) (nibble_c : bool).

Definition class_test (c : cname) (f : field) : outcome (bool * field) :=
  match c with
  | CNumeric => Ok (is_numeric m nibble_c f)
  | CAlpha => Ok (is_alpha f, f)
  | CUpper => Ok (is_upper f, f)
  | CLower => Ok (is_lower f, f)
  | _ => NotModelled
  end.

Fixpoint eval_with (names : nat -> cst -> outcome (bool * cst)) (t : tree) (s : cst) : outcome (bool * cst) :=
  match t with
  | TRel r x y =>
      match expr_of x, expr_of y, x, y with
      | Some a, Some b, _, _ => do c <- rel_num m debug alpha col s a b; Ok (rel_test r (fst c), snd c)
      | _, _, TLeaf (OText i), TLeaf (OText j) => do c <- rel_text m debug alpha col s i j; Ok (rel_test r (fst c), snd c)
      | _, _, _, _ => NotModelled
      end
  | TClass c (TLeaf (OText i)) | TClass c (TLeaf (ONum (ERef i))) =>
      do r <- class_test c (nth i (citems s) (mkField alnum_attr []));
      Ok (fst r, set_items s (set_nth i (snd r) (citems s)))
  | TNot x => do b <- eval_with names x s; Ok (negb (fst b), snd b)
  | TAnd x y => do b <- eval_with names x s; if fst b then eval_with names y (snd b) else Ok b
  | TOr x y => do b <- eval_with names x s; if fst b then Ok b else eval_with names y (snd b)
  | TLeaf (OCond k) => names k s
  | _ => NotModelled
  end.

Definition eval (names : nat -> name88) (t : tree) (s : cst) : outcome (bool * cst) :=
  eval_with (fun k s' => eval_with (fun _ _ => NotModelled) (cond_88 (names k)) s') t s.
End Eval.
