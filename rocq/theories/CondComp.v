(** Model of conditional compilation in fixed format: check_directive,
    check_dollar_directive and their use in ppinput (cobc/pplex.l), and the
    --constant option (cb_constant_list_add, cobc/cobc.c).
    Not modelled: directives that switch to free format (NotModelled). *)
From Verif Require Import Base FixedSrc.
Local Open Scope Z_scope.

(** *** --constant, cobc.c 432-484 *)

(** A constant: its name and its text; no text for CB_CONSTANT_TYPE_NONE. *)
Definition const := (list Z * option (list Z))%type.

(** strchr: what is before the first [x] and what follows it. *)
Fixpoint cut_at (x : Z) (l : list Z) : option (list Z * list Z) :=
  match l with
  | [] => None
  | c :: r => if c =? x then Some ([], r)
              else match cut_at x r with Some (a, b) => Some (c :: a, b) | None => None end
  end.

(** The constant for an option, if it is valid.  The text after the first
    quotation mark must be at least two characters long and contain the next
    one as its last character. *)
Definition const_of (o : list Z) : option const :=
  match cut_at 34 o, cut_at 40 o with
  | Some _, Some _ => None
  | Some ([], _), _ => None
  | _, Some _ => None
  | Some (n, s), None =>
    if (length s <? 2)%nat then None
    else match cut_at 34 s with
         | None => None
         | Some (v, []) => Some (n, Some v)
         | Some (_, _ :: _) => None
         end
  | None, None => Some (o, None)
  end.
(** The options in order, 478-483. *)
Fixpoint const_list (os : list (list Z)) : list const :=
  match os with
  | [] => []
  | o :: r => match const_of o with Some c => c :: const_list r | None => const_list r end
  end.

(** *** Words, pplex.l 767-769 *)
Definition is_space (c : Z) : bool := (c =? 32) || ((9 <=? c) && (c <=? 13)).
(** sscanf with %255s (a line has less): the words of a line; [w] is the word
    being read, in reverse. *)
Fixpoint words_from (w : list Z) (l : list Z) : list (list Z) :=
  match l with
  | [] => match w with [] => [] | _ => [rev w] end
  | c :: r => if is_space c
              then match w with [] => words_from [] r | _ => rev w :: words_from [] r end
              else words_from (c :: w) r
  end.
Definition word (ws : list (list Z)) (i : nat) : list Z := nth i (firstn 5 ws) [].

(** strcasecmp *)
Definition fold_case (c : Z) : Z := if (65 <=? c) && (c <=? 90) then c + 32 else c.
Fixpoint same (a b : list Z) : bool :=
  match a, b with
  | [], [] => true
  | x :: a', y :: b' => (fold_case x =? fold_case y) && same a' b'
  | _, _ => false
  end.

(** "$IF" "$ELSE" "$END" "$SET" "NOT" "DEFINED" "=" *)
Definition w_if : list Z := [36; 73; 70].
Definition w_else : list Z := [36; 69; 76; 83; 69].
Definition w_end : list Z := [36; 69; 78; 68].
Definition w_set : list Z := [36; 83; 69; 84].
Definition w_not : list Z := [78; 79; 84].
Definition w_defined : list Z := [68; 69; 70; 73; 78; 69; 68].
Definition w_eq : list Z := [61].
(** "SOURCEFORMAT(FIXED)", "SOURCEFORMAT(", "FREE", "FREE_1COL_ASTER" *)
Definition w_sf : list Z := [83; 79; 85; 82; 67; 69; 70; 79; 82; 77; 65; 84; 40].
Definition w_fixed : list Z := [70; 73; 88; 69; 68; 41].
Definition w_free : list Z := [70; 82; 69; 69].
Definition w_free1 : list Z := w_free ++ [95; 49; 67; 79; 76; 95; 65; 83; 84; 69; 82].

(** *** The condition of $IF, 796-846 *)

(** The literal compared with, 823-831: at least three characters, the first
    a quotation mark, the next quotation mark the last. *)
Definition lit_text (w : list Z) : option (list Z) :=
  if (length w <? 3)%nat then None
  else match w with
       | 34 :: s => match cut_at 34 s with Some (v, []) => Some v | _ => None end
       | _ => None
       end.

(** None: an error is reported.  The first constant with that name decides. *)
Fixpoint eval_const (cs : list const) (name lit : list Z) (defd neg : bool) : option bool :=
  match cs with
  | [] => Some neg
  | (n, v) :: r =>
    if same n name then
      if defd then Some (negb neg)
      else match v with
           | None => Some neg
           | Some t => match lit_text lit with
                       | None => None
                       | Some u => if same u t then Some (negb neg) else Some neg
                       end
           end
    else eval_const r name lit defd neg
  end.
Definition eval_if (cs : list const) (ws : list (list Z)) : option bool :=
  if (length (word ws 1) =? 0)%nat then None
  else
    let neg := same (word ws 2) w_not in
    let k := if neg then 1%nat else 0%nat in
    if same (word ws (2 + k)) w_defined then eval_const cs (word ws 1) [] true neg
    else if negb (same (word ws (2 + k)) w_eq) || (length (word ws (3 + k)) =? 0)%nat then None
    else eval_const cs (word ws 1) (word ws (3 + k)) false neg.

(** *** The state, 74-76 *)
Inductive stat := ST | SF | STE | SFE.
(** x_stack is cb_compile_status_list[0 .. compile_directive_depth], the top
    first; entries above are written before they are read.  x_skip:
    cb_compile_status is FALSE (an error ends the compilation). *)
Record cst := mkCst { x_r : rst; x_stack : list stat; x_skip : bool }.

Definition is_true (s : stat) : bool := match s with ST | STE => true | _ => false end.

(** $IF, $ELSE and $END on the stack, 774-884; None: error. *)
Definition dollar (cs : list const) (ws : list (list Z)) (st : list stat) : option (list stat) :=
  if same (word ws 0) w_if then
    if (10 <=? length st)%nat then None
    else match eval_if cs ws with
         | None => None
         | Some b => Some ((if b then ST else SF) :: st)
         end
  else if same (word ws 0) w_else then
    match st with
    | [] => None
    | ST :: r => Some (SFE :: r)
    | SF :: r => Some (STE :: r)
    | _ => None
    end
  else if same (word ws 0) w_end then
    match st with [] => None | _ :: r => Some r end
  else None.

(** "      *> DIRECTIVE" and "      *> DEBUG" *)
Definition t_directive : list Z := repeat 32 6 ++ [42; 62; 32; 68; 73; 82; 69; 67; 84; 73; 86; 69].
Definition t_debug : list Z := repeat 32 6 ++ [42; 62; 32; 68; 69; 66; 85; 71].

(** ppinput from 1018 on: [do_line] without the directives. *)
Definition rest_line (c : cfg) (l : list Z) (s : rst) : outcome lres :=
  if (length l <? 7)%nat then Ok (skip s)
  else if c_mfc c && ((nth 0 l 0 =? 42) || (nth 0 l 0 =? 47)) then Ok (skip s)
  else
    let i := nth 6 l 0 in
    if i =? 32 then line_text c l s
    else if i =? 45 then line_text c l (mkRst (r_nl s) (r_q s) (r_cq s) true)
    else if (i =? 100) || (i =? 68) then
      if c_debug c then line_text c l s else Ok (skip s)
    else if (i =? 42) || (i =? 47) then Ok (skip s)
    else Ok LErr.

Definition set_nl (n : nat) (s : rst) : rst := mkRst n (r_q s) (r_cq s) (r_cont s).

(** A line that does not depend on the condition: 1007-1010 if it is left out,
    otherwise the rest of ppinput. *)
Definition pass (c : cfg) (l : list Z) (r : rst) (x : cst) : outcome lres :=
  if x_skip x then Ok (skip r) else rest_line c l r.

(** The index of the first nonblank column from [i] on. *)
Fixpoint blanks (i : nat) (l : list Z) : nat :=
  match l with c :: r => if c =? 32 then blanks (S i) r else i | [] => i end.

(** check_directive 617-733, check_dollar_directive 735-920 and the tests
    1003-1016 on a line for which one of them acts. *)
Definition do_dir (c : cfg) (cs : list const) (l : list Z) (x : cst) : outcome (lres * cst) :=
  let s := x_r x in
  let nl := r_nl s in
  let lift (y : outcome lres) : outcome (lres * cst) := do v <- y; Ok (v, x) in
  let room {A} (y : outcome A) : outcome A := if c_cap c <? Z.of_nat nl + 20 then UB else y in
  if nth 6 l 0 =? 36 then room (
    let ws := words_from [] (skipn 6 (firstn (c_col c) l)) in
    if same (word ws 0) w_set then
      if same (word ws 1) (w_sf ++ w_fixed)
      then lift (pass c (repeat 10 nl ++ t_directive) (set_nl 0 s) x)
      else if same (firstn 13 (word ws 1)) w_sf then NotModelled
      else Ok (LErr, x)
    else match dollar cs ws (x_stack x) with
         | None => Ok (LErr, x)
         | Some st =>
           (* newline_count is set to 0 (774) and then counted up: 1009, 1014, or
              1060 for the comment line that was put into the buffer *)
           let r := set_nl 1 s in
           Ok (LSkip r, mkCst r st (negb (forallb is_true st)))
         end)
  else
    let i := blanks 7 (skipn 7 l) in
    let t := skipn (i + 2) l in
    if nth 0 t 0 =? 68 then
      if c_debug c
      then lift (pass c (firstn i l ++ repeat 32 3 ++ skipn 1 t) s x)
      else room (lift (pass c (repeat 10 nl ++ t_debug) (set_nl 0 s) x))
    else
      let ws := words_from [] t in
      if existsb (fun w => same w w_free || same w w_free1) ws then NotModelled
      else room (lift (pass c (repeat 10 nl ++ t_directive) (set_nl 0 s) x)).

(** A line, 981-1190. *)
Definition do_cline (c : cfg) (cs : list const) (l0 : list Z) (x : cst) : outcome (lres * cst) :=
  if existsb (Z.eqb 0) l0 then NotModelled
  else
    let l := cut_inline l0 in
    if is_directive l then do_dir c cs l x
    else do v <- pass c l (x_r x) x; Ok (v, x).

Fixpoint do_clines (c : cfg) (cs : list const) (ls : list (list Z)) (x : cst)
  : outcome (option (list Z)) :=
  match ls with
  | [] => if c_cap c <? Z.of_nat (r_nl (x_r x)) + 1 then UB
          else Ok (Some (repeat 10 (r_nl (x_r x))))
  | l :: r =>
    do y <- do_cline c cs l x;
    let x' s := mkCst s (x_stack (snd y)) (x_skip (snd y)) in
    match fst y with
    | LErr => Ok None
    | LSkip s' => do_clines c cs r (x' s')
    | LOut o s' =>
      do z <- do_clines c cs r (x' s');
      Ok (match z with Some o' => Some (o ++ o') | None => None end)
    end
  end.

Definition cst0 : cst := mkCst rst0 [] false.
(** What the scanner reads, for the --constant options [os]. *)
Definition compiled_text (c : cfg) (os : list (list Z)) (file : list Z) : outcome (option (list Z)) :=
  do_clines c (const_list os) (rd_lines (length file) (c_tab c) file) cst0.
