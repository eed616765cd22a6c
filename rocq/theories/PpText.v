(** Model of the text replacement of the preprocessor of cobc: COPY ...
    REPLACING and REPLACE (cobc/pplex.l).  The flex rules that cut the source
    into texts and the grammar of the directives (ppparse.y) are not modelled:
    the model starts from the sequence of events they produce. *)
From Verif Require Import Base.
Local Open Scope Z_scope.
Local Notation "' ( a , b ) <- e ;; f" := (obind e (fun x => let (a, b) := x in f))
  (at level 200, a name, b name, e at level 100, f at level 200, right associativity).

(** A C string without its terminating NUL: one text given to ppecho, or one
    element of a struct cb_text_list (cobc.h 68-71, cobc.c 389-404). *)
Definition tok := list Z.

(** struct cb_replace_list, cobc.h 81-86, its replace_type ppparse.y 236-248. *)
Inductive rkind := KOther | KLeading | KTrailing.
Record entry := mkEntry { e_kind : rkind; e_old : list tok; e_new : list tok }.

(** [text[0] == ' ' || text[0] == '\n'], pplex.l 1206, 1222, 1228, 1273, 1291. *)
Definition is_blank (t : tok) : bool :=
  match t with c :: _ => (c =? 32) || (c =? 10) | [] => false end.

(** tolower in the C locale, used by strcasecmp and strncasecmp. *)
Definition lower (c : Z) : Z := if (65 <=? c) && (c <=? 90) then c + 32 else c.
Fixpoint ci_eq (a b : tok) : bool :=
  match a, b with
  | [], [] => true
  | x :: a', y :: b' => (lower x =? lower y) && ci_eq a' b'
  | _, _ => false
  end.

(** strncasecmp (a, b, strlen (a)) == 0. *)
Definition ci_prefix (a b : tok) : bool := ci_eq a (firstn (length a) b).

(** while (x && blank (x->text)) x = x->next, pplex.l 1222-1224, 1228-1231,
    1273-1275, 1291-1293. *)
Fixpoint skip_blanks (l : list tok) : list tok :=
  match l with
  | t :: l' => if is_blank t then skip_blanks l' else l
  | [] => []
  end.
(** The blanks that are passed over by the same loop: the part of the queue
    before [queue], pplex.l 1269-1271 and 1284-1286. *)
Fixpoint lead_blanks (l : list tok) : list tok :=
  match l with
  | t :: l' => if is_blank t then t :: lead_blanks l' else []
  | [] => []
  end.

(** What is given to the next stage: a text by ppecho_proc, or bytes written to
    the output file at once by fputc (pplex.l 1287-1289). *)
Inductive act := Echo (t : tok) | Direct (t : tok).

(** The comparison of one entry with the queue, pplex.l 1220-1263. *)
Inductive cmpres :=
| CPartial                        (* the return of line 1233 *)
| CNo                             (* the next entry is tried *)
| CHit (a : list act) (q : list tok)
| CBad.                           (* strlen (queue->text) - oldlen wraps, 1287 *)

(** The inner loop for an entry without LEADING or TRAILING, pplex.l 1221-1245. *)
Fixpoint match_other (l q : list tok) : option (option (list tok)) :=
  match l with
  | [] => Some (Some q)                                  (* l == NULL: match *)
  | w :: l' =>
      if is_blank w then match_other l' q
      else match skip_blanks q with
           | [] => None                                  (* partial match *)
           | v :: q' => if ci_eq w v then match_other l' q' else Some None
           end
  end.

Definition try_entry (e : entry) (q : list tok) : cmpres :=
  match e_kind e with
  | KOther =>
      match match_other (e_old e) q with
      | None => CPartial
      | Some None => CNo
      | Some (Some q') => CHit (map Echo (e_new e)) q'         (* 1298-1301 *)
      end
  | KLeading =>
      match skip_blanks (e_old e), skip_blanks q with
      | [], _ => CNo                                           (* !l, 1247 *)
      | _ :: _, [] => CPartial
      | w :: _, v :: q' =>
          if ci_prefix w v then                                (* 1250 *)
            CHit (map Echo (lead_blanks q) ++ map Echo (firstn 1 (skip_blanks (e_new e))) ++
                  [Echo (skipn (length w) v)]) q'              (* 1267-1280 *)
          else CNo
      end
  | KTrailing =>
      match skip_blanks (e_old e), skip_blanks q with
      | [], _ => CNo
      | _ :: _, [] => CPartial
      | w :: _, v :: q' =>
          let o := hd [] (e_old e) in                          (* r->old_text->text *)
          if (length v <? length o)%nat then CNo               (* 1254 *)
          else if ci_eq (skipn (length v - length o) v) o then (* 1257 *)
            if (length v <? length w)%nat then CBad
            else CHit (map Echo (lead_blanks q) ++
                       [Direct (firstn (length v - length w) v)] ++
                       map Echo (firstn 1 (skip_blanks (e_new e)))) q'  (* 1281-1297 *)
          else CNo
      end
  end.

(** The loop over the list, pplex.l 1219-1264: the first entry that matches or
    that the queue is too short to decide ends it. *)
Fixpoint try_list (L : list entry) (q : list tok) : cmpres :=
  match L with
  | [] => CNo
  | e :: L' => match try_entry e q with CNo => try_list L' q | r => r end
  end.

(** while ( *pqueue) { ... }, pplex.l 1218-1318, [fuel] turns of it: NotModelled
    is returned when the loop has not ended by then.  The results are the texts
    passed on and the queue left by the return of line 1233. *)
Fixpoint drain (fuel : nat) (L : list entry) (q : list tok) : outcome (list act * list tok) :=
  match q with
  | [] => Ok ([], [])
  | t :: q' =>
      match fuel with
      | O => NotModelled
      | S n =>
          match try_list L q with
          | CPartial => Ok ([], q)
          | CBad => UB
          | CNo => '(a, r) <- drain n L q';; Ok (Echo t :: a, r)     (* 1302-1309 *)
          | CHit a q2 => '(a2, r) <- drain n L q2;; Ok (a ++ a2, r)
          end
      end
  end.

(** One stage of the replacement: the list in force and the queue. *)
Record stage := mkStage { s_list : option (list entry); s_queue : list tok }.

(** ppecho_0, pplex.l 1194-1320, with suppress_echo 0 (it is 1 only inside a
    COBOL68 style COPY in a data description).  The length of the queue is enough
    turns of the loop unless a pattern is empty (drain_fuel). *)
Definition ppecho_0 (st : stage) (text : tok) : outcome (list act * stage) :=
  match s_queue st, is_blank text, s_list st with
  | [], true, _ => Ok ([Echo text], st)                              (* 1206 *)
  | q, _, None => Ok (map Echo (q ++ [text]), mkStage None [])       (* 1208-1212 *)
  | q, _, Some L =>
      '(a, r) <- drain (length (q ++ [text])) L (q ++ [text]);;
      Ok (a, mkStage (Some L) r)
  end.

(** A sequence of texts given to one stage. *)
Fixpoint feed (st : stage) (ts : list tok) : outcome (list act * stage) :=
  match ts with
  | [] => Ok ([], st)
  | t :: ts' =>
      '(a, st1) <- ppecho_0 st t;;
      '(a2, st2) <- feed st1 ts';;
      Ok (a ++ a2, st2)
  end.

(** What is written to the output file: texts, and the line markers and newlines
    of COPY ("# %d \"%s\"\n" by switch_to_buffer, pplex.l 516, fputc ('\n', ppout),
    ppparse.y 192), whose contents are not modelled. *)
Inductive outp := OText (t : tok) | OMark.

(** The static variables of pplex.l 79-99: current_copy_replace_list and
    text_queue1, current_replace_list and text_queue2, copy_stack (only its
    [replacing]; JOINING is not modelled). *)
Record pp := mkPp { p_one : stage; p_two : stage; p_stack : list bool; p_out : list outp }.

(** ppecho_2, pplex.l 1328-1333, with ppecho_final 1322-1326, for each thing
    the first stage passes on. *)
Fixpoint second (st : pp) (acts : list act) : outcome pp :=
  match acts with
  | [] => Ok st
  | Direct t :: acts' => second (mkPp (p_one st) (p_two st) (p_stack st) (p_out st ++ [OText t])) acts'
  | Echo t :: acts' =>
      '(a, s2) <- ppecho_0 (p_two st) t;;
      second (mkPp (p_one st) s2 (p_stack st)
                   (p_out st ++ map (fun x => match x with Echo u | Direct u => OText u end) a)) acts'
  end.

(** ppecho, ppecho_1, pplex.l 1335-1346. *)
Definition ppecho (st : pp) (t : tok) : outcome pp :=
  '(a, s1) <- ppecho_0 (p_one st) t;;
  second (mkPp s1 (p_two st) (p_stack st) (p_out st)) a.

(** The events: a text of the source, COPY with or without REPLACING (the
    beginning of the copied file), the end of a copied file, REPLACE ... and
    REPLACE OFF. *)
Inductive event :=
| EText (t : tok)
| ECopy (r : option (list entry))
| EEnd
| EReplace (r : option (list entry)).

Definition set_list (s : stage) (r : option (list entry)) : stage := mkStage r (s_queue s).

Definition pp_step (st : pp) (e : event) : outcome pp :=
  match e with
  | EText t => ppecho st t
  | ECopy r =>                                             (* ppopen, pplex.l 519-565 *)
      Ok (mkPp (match r with Some _ => set_list (p_one st) r | None => p_one st end)
               (p_two st) ((match r with Some _ => true | None => false end) :: p_stack st)
               (p_out st ++ [OMark]))
  | EEnd =>                                                (* <<EOF>>, pplex.l 367-406 *)
      match p_stack st with
      | [] => NotModelled
      | b :: stk => Ok (mkPp (if b then set_list (p_one st) None else p_one st) (p_two st) stk
                             (p_out st ++ [OMark]))
      end
  | EReplace r =>                                          (* pp_set_replace_list, 411-414 *)
      Ok (mkPp (p_one st) (set_list (p_two st) r) (p_stack st) (p_out st))
  end.

Fixpoint pp_run (st : pp) (es : list event) : outcome pp :=
  match es with
  | [] => Ok st
  | e :: es' => do st1 <- pp_step st e; pp_run st1 es'
  end.

(** The state before the first text, and the text of the output: at the end of
    the source both queues are set to NULL (pplex.l 382), so what they hold is
    not written. *)
Definition pp_init : pp := mkPp (mkStage None []) (mkStage None []) [] [].
Definition out_texts (st : pp) : list tok :=
  flat_map (fun o => match o with OText t => [t] | OMark => [] end) (p_out st).
Definition preprocess (es : list event) : outcome (list tok) :=
  do st <- pp_run pp_init es; Ok (out_texts st).
