(** Specification of the text functions. *)
From Verif Require Import Base Field SpecNum.
Local Open Scope Z_scope.

(** Case of letters. *)
Definition upper_of (c d : Z) : Prop := (97 <= c <= 122 /\ d = c - 32) \/ (~ 97 <= c <= 122 /\ d = c).
Definition lower_of (c d : Z) : Prop := (65 <= c <= 90 /\ d = c + 32) \/ (~ 65 <= c <= 90 /\ d = c).
Definition same_letter (c d : Z) : Prop := exists l, lower_of c l /\ lower_of d l.

(** Substitution: at each position the first pattern of the list that occurs there
    is replaced and the scan goes on behind it; otherwise one character is kept. *)
Definition occurs (eq : Z -> Z -> Prop) (p t : list Z) : Prop :=
  exists a b, t = a ++ b /\ Forall2 eq p a.
Inductive substituted (eq : Z -> Z -> Prop) (reps : list (list Z * list Z)) : list Z -> list Z -> Prop :=
| sub_end : substituted eq reps [] []
| sub_keep : forall c t out, (forall p r, In (p, r) reps -> ~ occurs eq p (c :: t)) ->
    substituted eq reps t out -> substituted eq reps (c :: t) (c :: out)
| sub_rep : forall before p r after a t out, reps = before ++ (p, r) :: after ->
    (forall p' r', In (p', r') before -> ~ occurs eq p' (a ++ t)) ->
    Forall2 eq p a -> a ++ t <> [] ->
    substituted eq reps t out -> substituted eq reps (a ++ t) (r ++ out).

(** A number in NUMVAL format: blanks, optional sign, blanks, (optional currency
    sign, blanks,) digits with optional decimal point, blanks, optional sign, blanks;
    not two signs. *)
Definition blanks (l : list Z) : Prop := Forall (fun c => c = 32) l.
Inductive sign_text : list Z -> bool -> Prop :=
| sg_none : sign_text [] false
| sg_plus : sign_text [43] false
| sg_minus : sign_text [45] true.
Definition fraction_text (point : Z) (fp t : list Z) : Prop :=
  (fp = [] /\ t = []) \/ t = point :: map digit_char fp.

Inductive numval_text (point : Z) (cs : list Z) : list Z -> bool -> list Z -> list Z -> Prop :=
| nv_text : forall b1 s1 n1 b2 c b3 ip fp frac b4 s2 n2 b5,
    blanks b1 -> blanks b2 -> blanks b3 -> blanks b4 -> blanks b5 -> (c = [] \/ c = cs) ->
    sign_text s1 n1 -> sign_text s2 n2 -> (s1 = [] \/ s2 = []) ->
    Forall is_dig ip -> Forall is_dig fp -> fraction_text point fp frac ->
    numval_text point cs (b1 ++ s1 ++ b2 ++ c ++ b3 ++ map digit_char ip ++ frac ++ b4 ++ s2 ++ b5) (n1 || n2) ip fp.
