(** Model of the reading of fixed format source by cobc: ppinput of
    cobc/pplex.l for cb_source_format == CB_FORMAT_FIXED.
    Not modelled: the directives (check_directive, check_dollar_directive:
    such lines give NotModelled), NUL bytes, the skipping of AUTHOR etc.
    paragraphs (within_comment stays 0). *)
From Verif Require Import Base.
Local Open Scope Z_scope.

(** tab-width, text-column, -debugging lines, -fmfcomment, and the size of the
    flex buffer that ppinput may fill. *)
Record cfg := mkCfg { c_tab : nat; c_col : nat; c_debug : bool; c_mfc : bool; c_cap : Z }.

(** *** Reading a line, pplex.l 941-979 *)

(** A tab: one space, and more up to a multiple of the tab width, 970-974. *)
Definition put_tab (w : nat) (acc : list Z) : list Z :=
  let n := S (length acc) in
  acc ++ 32 :: (if Nat.eqb (n mod w) 0 then [] else repeat 32 (w - n mod w)).

(** The loop 946-979; [acc] is buff[0..n-1] without the newline. The result
    is the line without its newline and the rest of the file; None at EOF. *)
Fixpoint rd (w : nat) (inp : list Z) (acc : list Z) (gotcr : bool) : option (list Z * list Z) :=
  if (256 <=? length acc)%nat then Some (acc, inp)
  else match inp with
  | [] => match acc with [] => None | _ => Some (acc, []) end
  | c :: r =>
    let acc1 := if gotcr && negb (c =? 10) then acc ++ [13] else acc in
    if c =? 13 then rd w r acc1 true
    else if c =? 9 then rd w r (put_tab w acc1) false
    else if c =? 10 then Some (acc1, r)
    else rd w r (acc1 ++ [c]) false
  end.

(** The lines of the file as the loop delivers them.  Every call of [rd]
    consumes input, so the length of the file is enough fuel. *)
Fixpoint rd_lines (fuel w : nat) (inp : list Z) : list (list Z) :=
  match fuel with
  | O => []
  | S k => match rd w inp [] false with
           | None => []
           | Some (l, r) => l :: rd_lines k w r
           end
  end.

(** *** One line, pplex.l 981-1190 *)

(** newline_count, quotation_mark (0, 34 or 39), consecutive_quotation, and
    the local variable continuation, which is not reset at the label start. *)
Record rst := mkRst { r_nl : nat; r_q : Z; r_cq : bool; r_cont : bool }.

(** strstr (buff, "*>") as an index, 989. *)
Fixpoint find_inline (i : nat) (l : list Z) : option nat :=
  match l with
  | 42 :: 62 :: _ => Some i
  | _ :: r => find_inline (S i) r
  | [] => None
  end.
(** 989-999: a comment that begins with "*>" in column 8 or later is cut if
    there is no quotation mark after it. *)
Definition cut_inline (l : list Z) : list Z :=
  match find_inline 0 l with
  | Some i => if (7 <=? i)%nat && negb (existsb (Z.eqb 34) (skipn i l)) then firstn i l else l
  | None => l
  end.

Fixpoint skip_sp (l : list Z) : list Z :=
  match l with c :: r => if c =? 32 then skip_sp r else l | [] => [] end.

(** check_directive 617-646 and check_dollar_directive 746-756 would act. *)
Definition is_directive (l : list Z) : bool :=
  (7 <=? length l)%nat &&
  ((nth 6 l 0 =? 36) ||
   ((nth 6 l 0 =? 32) &&
    match skip_sp (skipn 7 l) with 62 :: 62 :: _ => true | _ => false end)).

(** The search for quotation marks 1151-1165; [i] is the index in buff. *)
Fixpoint scan (col i : nat) (t : list Z) (q : Z) (cq : bool) : Z * bool :=
  match t with
  | [] => (q, cq)
  | c :: r =>
    if (c =? 39) || (c =? 34) then
      if q =? 0 then scan col (S i) r c cq
      else if q =? c then
        if Nat.eqb i (col - 1) then scan col (S i) r q true else scan col (S i) r 0 cq
      else scan col (S i) r q cq
    else scan col (S i) r q cq
  end.

(** Trailing spaces, 1173-1177. *)
Fixpoint rtrim_sp (l : list Z) : list Z :=
  match l with
  | [] => []
  | c :: r => match rtrim_sp r with
              | [] => if c =? 32 then [] else [c]
              | r' => c :: r'
              end
  end.
Definition ends_quote (l : list Z) : bool :=
  match rev l with c :: _ => (c =? 39) || (c =? 34) | [] => false end.

(** 1167-1178: [t] is the text from index [b] up to the newline. *)
Definition finish (b : nat) (t : list Z) (q : Z) : list Z :=
  if q =? 0 then
    let u := rtrim_sp t in if ends_quote u then u ++ [32] else u
  else t ++ repeat 32 (72 - (b + length t)).

Inductive lres := LSkip (s : rst) | LOut (o : list Z) (s : rst) | LErr.

Definition skip (s : rst) : lres := LSkip (mkRst (S (r_nl s)) (r_q s) (r_cq s) (r_cont s)).

(** 1064-1190 for a line with a valid indicator; the text is cut at the text
    column (1093-1111), blank lines are skipped (1113-1118), continuations
    checked (1120-1149). *)
Definition line_text (c : cfg) (l : list Z) (s : rst) : outcome lres :=
  let l := firstn (c_col c) l in
  let t := skipn 7 l in
  match skip_sp t with
  | [] => Ok (skip s)
  | _ =>
    let go (t : list Z) (q : Z) (cq : bool) : outcome lres :=
      let b := (length l - length t)%nat in
      let r := scan (c_col c) b t q cq in
      let o := finish b t (fst r) in
      if r_cont s then
        if c_cap c <? Z.of_nat (length o) + 1 then UB
        else Ok (LOut o (mkRst (S (r_nl s)) (fst r) (snd r) false))
      else
        if c_cap c <? Z.of_nat (r_nl s + length o) + 1 then UB
        else Ok (LOut (repeat 10 (r_nl s) ++ o) (mkRst 1 (fst r) (snd r) false)) in
    if r_cont s then
      let u := skip_sp t in
      if r_cq s then
        if (nth 0 u 0 =? r_q s) && (nth 1 u 0 =? r_q s) then go (skipn 1 u) 0 false
        else Ok LErr
      else if negb (r_q s =? 0) then
        if nth 0 u 0 =? r_q s then go (skipn 1 u) (r_q s) false else Ok LErr
      else go u 0 false
    else go t 0 false
  end.

(** 981-1062. *)
Definition do_line (c : cfg) (l0 : list Z) (s : rst) : outcome lres :=
  if existsb (Z.eqb 0) l0 then NotModelled
  else
    let l := cut_inline l0 in
    if is_directive l then NotModelled
    else if (length l <? 7)%nat then Ok (skip s)
    else if c_mfc c && ((nth 0 l 0 =? 42) || (nth 0 l 0 =? 47)) then Ok (skip s)
    else
      let i := nth 6 l 0 in
      if i =? 32 then line_text c l s
      else if i =? 45 then line_text c l (mkRst (r_nl s) (r_q s) (r_cq s) true)
      else if (i =? 100) || (i =? 68) then
        if c_debug c then line_text c l s else Ok (skip s)
      else if (i =? 42) || (i =? 47) then Ok (skip s)
      else Ok LErr.

(** All calls of ppinput up to the end of the file (949-957) or an error
    (None): what flex gets to read. *)
Fixpoint do_lines (c : cfg) (ls : list (list Z)) (s : rst) : outcome (option (list Z)) :=
  match ls with
  | [] => if c_cap c <? Z.of_nat (r_nl s) + 1 then UB else Ok (Some (repeat 10 (r_nl s)))
  | l :: r =>
    do x <- do_line c l s;
    match x with
    | LErr => Ok None
    | LSkip s' => do_lines c r s'
    | LOut o s' =>
      do y <- do_lines c r s';
      Ok (match y with Some o' => Some (o ++ o') | None => None end)
    end
  end.

Definition rst0 : rst := mkRst 0 0 false false.
Definition source_text (c : cfg) (file : list Z) : outcome (option (list Z)) :=
  do_lines c (rd_lines (length file) (c_tab c) file) rst0.
