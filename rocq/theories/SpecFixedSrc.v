(** What a program in fixed format means to its reader, as columns: 7 is the
    indicator, 8 to 72 the text.  Nothing here mentions the compiler. *)
From Verif Require Import Base.
Local Open Scope Z_scope.

Definition is_quote (c : Z) : bool := (c =? 39) || (c =? 34).

Fixpoint drop_blanks (l : list Z) : list Z :=
  match l with c :: r => if c =? 32 then drop_blanks r else l | [] => [] end.
Definition trim_end (l : list Z) : list Z := rev (drop_blanks (rev l)).

(** The columns of a line that is shown with tab stops every [w] columns; [n]
    columns stand before it. *)
Fixpoint expand (w n : nat) (l : list Z) : list Z :=
  match l with
  | [] => []
  | c :: r => if c =? 9 then let k := (w - n mod w)%nat in repeat 32 k ++ expand w (n + k) r
              else c :: expand w (S n) r
  end.

Definition indicator (l : list Z) : Z := nth 6 l 32.
Definition text_area (l : list Z) : list Z := skipn 7 (firstn 72 l).

Inductive kind := KSkip | KText (t : list Z) | KCont (t : list Z) | KBad.

(** Comment lines, debugging lines when they are off and blank lines say
    nothing. *)
Definition kind_of (debug mfc : bool) (l : list Z) : kind :=
  if (length l <? 7)%nat then KSkip
  else if mfc && existsb (Z.eqb (nth 0 l 32)) [42; 47] then KSkip
  else
    let t := text_area l in
    let blank := match drop_blanks t with [] => true | _ => false end in
    let i := indicator l in
    if existsb (Z.eqb i) [42; 47] then KSkip
    else if existsb (Z.eqb i) [100; 68] then
      if debug && negb blank then KText t else KSkip
    else if i =? 32 then if blank then KSkip else KText t
    else if i =? 45 then if blank then KSkip else KCont t
    else KBad.

(** Is a literal open after the text?  [None] means no, [Some d] a literal
    with the delimiter [d]. *)
Definition toggle (q : option Z) (c : Z) : option Z :=
  match q with
  | None => if is_quote c then Some c else None
  | Some d => if c =? d then None else Some d
  end.
Definition open_after (q : option Z) (t : list Z) : option Z := fold_left toggle t q.

(** How a line ends: outside literals; in one; or with a delimiter in column
    72, which the next line may double. *)
Inductive ending := ENo | EIn (d : Z) | EEdge (d : Z).
Definition ending_of (full : bool) (q : option Z) (t : list Z) : ending :=
  match open_after q t with
  | Some d => EIn d
  | None => match rev t with
            | c :: _ => if full && is_quote c then EEdge c else ENo
            | [] => ENo
            end
  end.

(** The text a line contributes: the blanks at its end do not count, except
    in an open literal, which goes on to column 72; [pad] columns are missing
    there.  A blank separates a closed literal from what follows. *)
Definition shown (pad : nat) (t : list Z) (e : ending) : list Z :=
  match e with
  | ENo => let u := trim_end t in
           match rev u with c :: _ => if is_quote c then u ++ [32] else u | [] => u end
  | _ => t ++ repeat 32 pad
  end.

(** What a continuation line adds to a line that ended with [e]: the text,
    and whether a literal is open where it begins. *)
Definition resume (e : ending) (t : list Z) : option (list Z * option Z) :=
  let u := drop_blanks t in
  match e with
  | ENo => Some (u, None)
  | EIn d => match u with c :: v => if c =? d then Some (v, Some d) else None | [] => None end
  | EEdge d => match u with
               | c :: c' :: v => if (c =? d) && (c' =? d) then Some (c' :: v, None) else None
               | _ => None
               end
  end.

Definition missing (t : list Z) : nat := (65 - length t)%nat.
Definition full (t : list Z) : bool := Nat.eqb (missing t) 0.

(** The program: for each line of the source the text that begins there, with
    the continuation lines that follow joined to it; and before all that the
    text which continues an earlier line.  None: not a program. *)
Fixpoint program (e : ending) (ks : list kind) : option (list Z * list (list Z)) :=
  match ks with
  | [] => Some ([], [])
  | KSkip :: r =>
    match program e r with Some (tl, sl) => Some (tl, [] :: sl) | None => None end
  | KText t :: r =>
    let e' := ending_of (full t) None t in
    match program e' r with
    | Some (tl, sl) => Some ([], (shown (missing t) t e' ++ tl) :: sl)
    | None => None
    end
  | KCont t :: r =>
    match resume e t with
    | None => None
    | Some (u, q) =>
      let e' := ending_of (full t) q u in
      match program e' r with
      | Some (tl, sl) => Some (shown (missing t) u e' ++ tl, [] :: sl)
      | None => None
      end
    end
  | KBad :: _ => None
  end.

Definition unlines (ls : list (list Z)) : list Z := concat (map (fun l => l ++ [10]) ls).
Definition program_text (p : list Z * list (list Z)) : list Z := fst p ++ unlines (snd p).

(** Lines without directives, NUL, inline comments and blank continuations. *)
Definition has_inline (l : list Z) : Prop := exists a b, l = a ++ 42 :: 62 :: b.
Definition directive (l : list Z) : Prop :=
  (7 <= length l)%nat /\
  (indicator l = 36 \/ (indicator l = 32 /\ exists r, drop_blanks (skipn 7 l) = 62 :: 62 :: r)).
Definition blank_continuation (l : list Z) : Prop :=
  (7 <= length l)%nat /\ indicator l = 45 /\ drop_blanks (text_area l) = [].
Definition plain (l : list Z) : Prop :=
  ~ In 0 l /\ ~ In 10 l /\ ~ has_inline l /\ ~ directive l /\ ~ blank_continuation l.
