(** What numeric editing shows (specification; independent of the editing code).

    A numeric-edited picture is a list of symbols followed by an optional
    trailing sign.  The text of a number has one character for each character
    of the picture (none for V). *)
From Coq Require Import QArith Qabs.
From Verif Require Import Base Field SpecNum.
Local Open Scope Z_scope.

(** Symbols of the picture:
    [Digit] 9; [Supp] Z or * (a digit place whose leading zeros are replaced);
    [Float] + - or the currency sign in front of or among the digits;
    [Comma] the separator; [Blank] B; [Insert c] 0 or /;
    [Point] the decimal point; [Virtual] V. *)
Inductive sym := Digit | Supp | Float | Comma | Blank | Insert (c : Z) | Point | Virtual.

(** What [Float] stands for, and what follows the digits. *)
Inductive leader := LPlus | LMinus | LCurr.
Inductive trailer := NoTrail | TPlus | TMinus | TCR | TDB.

Record picture := mkPic {
  p_star : bool;            (* [Supp] is * rather than Z *)
  p_lead : leader;
  p_body : list sym;
  p_trail : trailer }.

(** ** The picture string *)

(** 44 ',', 46 '.': DECIMAL-POINT IS COMMA exchanges them. *)
Definition separator (m : cfg) : Z := if c_decpoint m =? 46 then 44 else 46.
Definition lead_code (m : cfg) (k : leader) : Z :=
  match k with LPlus => 43 | LMinus => 45 | LCurr => c_currency m end.
Definition sym_code (m : cfg) (p : picture) (s : sym) : Z :=
  match s with
  | Digit => 57
  | Supp => if p_star p then 42 else 90
  | Float => lead_code m (p_lead p)
  | Comma => separator m
  | Blank => 66
  | Insert c => c
  | Point => c_decpoint m
  | Virtual => 86
  end.
(** CR and DB are written as their first letter in the compiled picture. *)
Definition trail_code (t : trailer) : list Z :=
  match t with NoTrail => [] | TPlus => [43] | TMinus => [45] | TCR => [67] | TDB => [68] end.
Definition pic_string (m : cfg) (p : picture) : list Z :=
  map (sym_code m p) (p_body p) ++ trail_code (p_trail p).

Definition shown (s : sym) : bool := match s with Virtual => false | _ => true end.
Definition trail_size (t : trailer) : nat :=
  match t with NoTrail => 0 | TPlus | TMinus => 1 | TCR | TDB => 2 end.
(** Number of character positions. *)
Definition pic_size (p : picture) : nat :=
  (length (filter shown (p_body p)) + trail_size (p_trail p))%nat.

(** ** Places for digits *)
Definition place (s : sym) : bool := match s with Digit | Supp | Float => true | _ => false end.
Definition is_point (s : sym) : bool := match s with Point | Virtual => true | _ => false end.
Definition is_nine (s : sym) : bool := match s with Digit => true | _ => false end.
Definition is_supp (s : sym) : bool := match s with Supp => true | _ => false end.
Definition is_float (s : sym) : bool := match s with Float => true | _ => false end.
Definition has (q : sym -> bool) (l : list sym) : bool := existsb q l.
Definition places (l : list sym) : Z := Z.of_nat (length (filter place l)).
(** Places behind the decimal point. *)
Fixpoint decimals (l : list sym) : Z :=
  match l with
  | [] => 0
  | s :: r => if is_point s then places r else decimals r
  end.

(** ** The text of the digits [N] (a number of [places] digits) *)
Section Text.
Variables (m : cfg) (p : picture) (N : Z) (neg : bool).

Definition fill : Z := if p_star p then 42 else 32.
Definition sign_or_currency : Z :=
  match p_lead p with
  | LPlus => if neg then 45 else 43
  | LMinus => if neg then 45 else 32
  | LCurr => c_currency m
  end.

(** The digit shown at a place that is followed by [b]. *)
Definition digit_at (b : list sym) : Z := 48 + (N / 10 ^ places b) mod 10.

(** The position [s], between [a] and [b], lies in the suppressed zone: no 9
    and no decimal point up to here, and no digit other than zero so far. *)
Definition leading (a : list sym) (s : sym) (b : list sym) : bool :=
  negb (has is_nine (a ++ [s])) && negb (has is_point (a ++ [s])) && (N <? 10 ^ places b).

(** The next position lies in it too. *)
Definition next_leading (a : list sym) (s : sym) (b : list sym) : bool :=
  match b with [] => false | t :: r => leading (a ++ [s]) t r end.

(** What a position of the suppressed zone shows.  With Z or *: the fill
    character (spaces as long as no Z or * was seen); a sign or currency sign
    in front of them stays at its place.  Otherwise the sign or currency sign
    floats: it is shown at the last position of the zone. *)
Definition gap (a : list sym) (s : sym) (b : list sym) : Z :=
  if has is_supp (p_body p) then
    if is_float s then sign_or_currency
    else if has is_supp (a ++ [s]) then fill else 32
  else if has is_float (p_body p) then
    if next_leading a s b then 32 else sign_or_currency
  else 32.

(** What the position [s] shows between [a] and [b]. *)
Definition cell (a : list sym) (s : sym) (b : list sym) : list Z :=
  match s with
  | Digit => [digit_at b]
  | Supp | Float => [if leading a s b then gap a s b else digit_at b]
  | Comma => [if leading a s b then gap a s b else separator m]
  | Blank => [if leading a s b then gap a s b else 32]
  | Insert c => [c]
  | Point => [c_decpoint m]
  | Virtual => []
  end.

Fixpoint cells (a l : list sym) : list Z :=
  match l with
  | [] => []
  | s :: b => cell a s b ++ cells (a ++ [s]) b
  end.

Definition trail_text : list Z :=
  match p_trail p with
  | NoTrail => []
  | TPlus => [if neg then 45 else 43]
  | TMinus => [if neg then 45 else 32]
  | TCR => if neg then [67; 82] else [32; 32]
  | TDB => if neg then [68; 66] else [32; 32]
  end.

(** A zero is blanked if no place is a 9, or by BLANK WHEN ZERO. *)
Definition blanked (bzero : bool) : bool :=
  (N =? 0) && (negb (has is_nine (p_body p)) || bzero).

(** Blanked text: spaces; or, with * and without BLANK WHEN ZERO, asterisks
    everywhere but at the decimal point. *)
Definition blank_text (bzero : bool) : list Z :=
  if bzero || negb (has is_supp (p_body p)) || negb (p_star p) then repeat 32 (pic_size p)
  else flat_map (fun s => match s with Virtual => [] | Point => [c_decpoint m] | _ => [42] end) (p_body p)
       ++ repeat 42 (trail_size (p_trail p)).

Definition edited_text (bzero : bool) : list Z :=
  if blanked bzero then blank_text bzero else cells [] (p_body p) ++ trail_text.

End Text.

(** ** Pictures and programs considered *)

(** cobc accepts these as currency signs (parser.y 1520-1583, among others) and
    these decimal points. *)
Definition edit_cfg (m : cfg) : Prop :=
  (c_decpoint m = 46 \/ c_decpoint m = 44) /\
  ~ In (c_currency m) [0; 32; 42; 43; 44; 45; 46; 47; 48; 49; 50; 51; 52; 53; 54; 55; 56; 57; 66; 67; 68; 80; 86; 90].

Record editable (p : picture) : Prop := mkEditable {
  (* 0 and / are inserted as they are *)
  ed_insert : forall c, In (Insert c) (p_body p) -> c = 48 \/ c = 47;
  (* only digit places follow the decimal point *)
  ed_point : forall a s b, p_body p = a ++ s :: b -> is_point s = true -> forallb place b = true;
  (* a sign or currency sign stands in front, and *)
  ed_first : has is_float (p_body p) = true -> exists r, p_body p = Float :: r /\
     (* either it floats: no Z or *; it does not recur after a 9, and 0 or /
        only occur after a 9 *)
     (has is_supp (p_body p) = false /\
      (forall a b, p_body p = a ++ Float :: b -> has is_nine a = false) /\
      (forall a c b, p_body p = a ++ Insert c :: b -> has is_nine a = true) \/
     (* or it is followed by asterisks *)
      p_star p = true /\ has is_float r = false /\ exists r', r = Supp :: r');
  (* a trailing + or - follows a 9, Z or *, and is the only sign *)
  ed_trail : p_trail p = TPlus \/ p_trail p = TMinus ->
     has is_nine (p_body p) || has is_supp (p_body p) = true /\
     (has is_float (p_body p) = true -> p_lead p = LCurr) }.

(** [f] is a numeric-edited item with the picture [p]. *)
Definition edited_item (m : cfg) (p : picture) (f : field) : Prop :=
  a_type (fa f) = TNumEdited /\ f_size f = pic_size p /\ (1 <= f_size f)%nat /\
  flat_map (fun cn => repeat (fst cn) (Z.to_nat (snd cn))) (a_pic (fa f)) = pic_string m p /\
  Forall (fun cn => 1 <= snd cn) (a_pic (fa f)).

(** [N] are the digits of [q] that the picture has places for: aligned at the
    decimal point and cut on both sides. *)
Definition picture_digits (p : picture) (q : Q) (N : Z) : Prop :=
  exists w, trunc_at q (decimals (p_body p)) w /\
            N = Z.abs w mod 10 ^ places (p_body p).

(** The first digit that is cut off on the right is zero. *)
Definition next_zero (p : picture) (q : Q) : Prop :=
  exists w, trunc_at q (decimals (p_body p) + 1) w /\ Z.rem w 10 = 0.

(** The number [q] with the digits [N] can be edited with [p]: a picture with
    a leading sign or currency sign has a place less, and all digits must fit;
    with a trailing + or -, a zero that is to be blanked has no non-zero digit
    just behind the last place. *)
Definition editable_number (p : picture) (q : Q) (bzero : bool) (N : Z) : Prop :=
  picture_digits p q N /\
  (has is_float (p_body p) = true -> N < 10 ^ (places (p_body p) - 1)) /\
  (p_trail p = TPlus \/ p_trail p = TMinus -> next_zero p q \/ blanked p N bzero = false).

(** The sign shown: that of the number (a zero may carry either). *)
Definition sign_of (q : Q) (neg : bool) : Prop :=
  ((q < 0)%Q -> neg = true) /\ ((0 < q)%Q -> neg = false).

(** [f'] is the item [f] showing the number [q]. *)
Definition shows (m : cfg) (p : picture) (q : Q) (f f' : field) : Prop :=
  exists N neg, picture_digits p q N /\ sign_of q neg /\
    fa f' = fa f /\ fd f' = edited_text m p N neg (a_bzero (fa f)).

(** ** Reading an edited item back (de-editing) *)

(** The text shows whether the number is negative.  (DB is not recognised when
    the text is read back.) *)
Definition carries_sign (p : picture) : bool :=
  has is_float (p_body p) && match p_lead p with LCurr => false | _ => true end ||
  match p_trail p with TPlus | TMinus | TCR => true | _ => false end.

(** No inserted 0; a decimal point is followed by a digit place; a V is not
    followed by floating signs. *)
Record readable (p : picture) : Prop := mkReadable {
  rd_insert : ~ In (Insert 48) (p_body p);
  rd_point : In Point (p_body p) -> 1 <= decimals (p_body p);
  rd_virtual : forall a b, p_body p = a ++ Virtual :: b -> has is_float b = false;
  rd_places : places (p_body p) <= 64 }.

(** The number read back. *)
Definition read_back (p : picture) (N : Z) (neg : bool) : Q :=
  rat (if neg && carries_sign p then - N else N) (decimals (p_body p)).

(** ** Arithmetic *)

(** Digits an edited item can take: a floating sign or currency sign takes a place. *)
Definition edit_digits (p : picture) : Z := places (p_body p) - (if has is_float (p_body p) then 1 else 0).
