(** What text replacement means, on the texts of a source: words and the blanks
    and line ends between them. *)
From Verif Require Import Base PpText.
Local Open Scope Z_scope.

(** A text is a blank if it begins with a space or a line end; all others are words. *)
Definition blank (t : tok) : Prop := exists u, t = 32 :: u \/ t = 10 :: u.
Definition words (l : list tok) : list tok := filter (fun t => negb (is_blank t)) l.

(** Words are compared without regard to the case of the letters A-Z. *)
Definition same_word (a b : tok) : Prop := map lower a = map lower b.

(** The words [p] stand at the beginning of [s]; [rest] follows them.  Blanks
    between the words do not count. *)
Inductive stands : list tok -> list tok -> list tok -> Prop :=
| stands_last : forall p w rest, same_word p w -> stands [p] (w :: rest) rest
| stands_more : forall p w ps bl s rest, same_word p w -> Forall blank bl -> stands ps s rest ->
    stands (p :: ps) (w :: bl ++ s) rest.

(** The entry [e] applies to the words at the beginning of [s]: they are replaced
    by [new], and [rest] follows.  LEADING and TRAILING replace a part of one word. *)
Inductive applies (e : entry) : list tok -> list tok -> list tok -> Prop :=
| applies_whole : forall s rest, e_kind e = KOther -> stands (words (e_old e)) s rest ->
    applies e s (e_new e) rest
| applies_leading : forall p a b rest, e_kind e = KLeading -> hd_error (words (e_old e)) = Some p ->
    same_word p a -> ~ blank (a ++ b) ->
    applies e ((a ++ b) :: rest) (firstn 1 (words (e_new e)) ++ [b]) rest
| applies_trailing : forall p a b rest, e_kind e = KTrailing -> hd_error (words (e_old e)) = Some p ->
    same_word p b -> ~ blank (a ++ b) ->
    applies e ((a ++ b) :: rest) (a :: firstn 1 (words (e_new e))) rest.

Definition applies_to (e : entry) (s : list tok) : Prop := exists new rest, applies e s new rest.

(** The text [s] with the replacements of [L]: from left to right, at each word
    the first entry of the list that applies is used; what it has put in is not
    looked at again; everything else stays.  With [glue] the blanks before a
    replaced word may be lost. *)
Inductive replaced (glue : bool) (L : list entry) : list tok -> list tok -> Prop :=
| rep_nil : replaced glue L [] []
| rep_blank : forall b s o, blank b -> replaced glue L s o -> replaced glue L (b :: s) (b :: o)
| rep_keep : forall w s o, ~ blank w -> (forall e, In e L -> ~ applies_to e (w :: s)) ->
    replaced glue L s o -> replaced glue L (w :: s) (w :: o)
| rep_hit : forall L1 e L2 bl s new rest o, L = L1 ++ e :: L2 ->
    (forall e', In e' L1 -> ~ applies_to e' s) -> applies e s new rest ->
    Forall blank bl -> (bl = [] \/ glue = true) ->
    replaced glue L rest o -> replaced glue L (bl ++ s) (new ++ o).

(** The entries the theorems are about: the pattern has a word, and it does not
    begin with a blank if it is TRAILING. *)
Definition entry_ok (e : entry) : Prop :=
  words (e_old e) <> [] /\ (e_kind e = KTrailing -> exists w l, e_old e = w :: l /\ ~ blank w).

(** The pattern is one word (or the entry is LEADING or TRAILING). *)
Definition one_word (e : entry) : Prop := e_kind e = KOther -> exists w, words (e_old e) = [w].

(** A source: texts, and copied files with their REPLACING phrase. *)
Inductive item := Txt (t : tok) | Copied (L : option (list entry)) (body : list tok).
Definition events (i : item) : list event :=
  match i with
  | Txt t => [EText t]
  | Copied L body => ECopy L :: map EText body ++ [EEnd]
  end.

(** How many words of the source an entry needs. *)
Definition span (e : entry) : nat :=
  match e_kind e with KOther => length (words (e_old e)) | _ => 1%nat end.

(** What an item of a source contributes to the text that REPLACE sees. *)
Inductive contributes : item -> list tok -> Prop :=
| con_text : forall t, contributes (Txt t) [t]
| con_plain : forall body, contributes (Copied None body) body
| con_replacing : forall L body o, replaced true L body o -> contributes (Copied (Some L) body) o.

(** COPY without REPLACING, nested to any depth, among texts and REPLACE
    statements; and the same with the copied text in line. *)
Inductive plain_copies : list event -> list event -> Prop :=
| pc_nil : plain_copies [] []
| pc_text : forall t es fs, plain_copies es fs -> plain_copies (EText t :: es) (EText t :: fs)
| pc_replace : forall r es fs, plain_copies es fs -> plain_copies (EReplace r :: es) (EReplace r :: fs)
| pc_copy : forall a a' es fs, plain_copies a a' -> plain_copies es fs ->
    plain_copies (ECopy None :: a ++ EEnd :: es) (a' ++ fs).

(** The COPY statements of the theorems about whole sources: the patterns of a
    REPLACING phrase have a word, are all of the same length, and none is LEADING
    or TRAILING; between two COPY statements there is a text. *)
Definition item_ok (i : item) : Prop :=
  match i with
  | Copied (Some L) _ => Forall entry_ok L /\ Forall (fun e => e_kind e = KOther) L /\
      exists n, Forall (fun e => span e = n) L
  | _ => True
  end.
Fixpoint separated (l : list item) : Prop :=
  match l with
  | Copied _ _ :: l' => match l' with Copied _ _ :: _ => False | _ => separated l' end
  | _ :: l' => separated l'
  | [] => True
  end.

(** A section of the source under one REPLACE statement (or REPLACE OFF, or
    none), ending with a word that is in none of its patterns, such as the period
    before the next REPLACE. *)
Record section := mkSection { c_list : option (list entry); c_items : list item; c_last : tok }.
Definition list_of (r : option (list entry)) : list entry := match r with Some L => L | None => [] end.
Definition section_items (c : section) : list item := c_items c ++ [Txt (c_last c)].
Definition section_ok (c : section) : Prop :=
  Forall entry_ok (list_of (c_list c)) /\ Forall item_ok (c_items c) /\ separated (c_items c) /\ ~ blank (c_last c) /\
  forall e p, In e (list_of (c_list c)) -> In p (e_old e) -> ~ same_word p (c_last c).
Definition section_events (c : section) : list event := EReplace (c_list c) :: flat_map events (section_items c).

(** The texts given to the next stage, or written. *)
Definition texts (a : list act) : list tok := map (fun x => match x with Echo t | Direct t => t end) a.

(** The texts that are held back: their words begin a pattern that goes on. *)
Definition pending (L : list entry) (q : list tok) : Prop :=
  q = [] \/ exists e p1 p2, In e L /\ words (e_old e) = p1 ++ p2 /\ p2 <> [] /\ Forall2 same_word p1 (words q) /\ (e_kind e <> KOther -> p1 = []).
