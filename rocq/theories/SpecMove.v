(** Specification vocabulary for MOVE (independent of the MOVE code). *)
From Coq Require Import QArith Qabs.
From Verif Require Import Base Field SpecNum Numeric SpecStore.
Local Open Scope Z_scope.

(** What a numeric receiver keeps of the (already aligned) number [w]:
    DISPLAY and COMP-3 keep as many low-order digits as they have positions;
    binary items keep the digits of their picture if binary truncation is on
    and everything otherwise (COMP-5 / BINARY-LONG or -fno-trunc). *)
Definition kept_digits (m : cfg) (f : field) (w : Z) : Z :=
  match a_type (fa f) with
  | TBinary => if c_bintrunc m && negb (a_realbin (fa f))
               then low_part (Z.to_nat (a_digits (fa f))) w else w
  | TPacked => low_part (Z.to_nat (a_digits (fa f))) w
  | _ => low_part (data_size f) w
  end.

(** [received m f f' q]: the item [f], with unchanged attributes and size, now
    holds the number [q] truncated at the receiver's decimal point, without the
    high-order digits it has no place for, and without a sign if it is unsigned. *)
Definition received (m : cfg) (f f' : field) (q : Q) : Prop :=
  fa f' = fa f /\ f_size f' = f_size f /\
  forall w, trunc_at q (a_scale (fa f)) w ->
            denotes (c_ebcdic m) f' (held f (kept_digits m f w)).

(** Alphanumeric receivers: text left-justified and padded with spaces or cut
    on the right; JUSTIFIED RIGHT mirrors this. *)
Definition padded (n : nat) (s : list Z) : list Z := s ++ repeat 32 (n - length s).
Definition left_justified (n : nat) (s : list Z) : list Z := firstn n (padded n s).
Definition right_justified (n : nat) (s : list Z) : list Z :=
  rev (left_justified n (rev s)).

(** Digit positions that take part when an item is moved: the digits of a
    DISPLAY or COMP-3 item; 20 for a binary item. *)
Definition digit_positions (f : field) : Z :=
  match a_type (fa f) with
  | TDisplay => Z.of_nat (data_size f)
  | TPacked => a_digits (fa f)
  | _ => 20
  end.

(** The number [v] of [f1] can be received by the binary item [f2]: the scale
    of the sender is within its digits (as seen by the receiver), the aligned
    number fits a 64-bit integer, and what is kept of it fits the item. *)
Definition binary_receivable (m : cfg) (f1 f2 : field) (v : Z) : Prop :=
  a_scale (fa f1) <= digit_positions f1 + a_scale (fa f2) /\
  (c_bintrunc m && negb (a_realbin (fa f2)) = true -> a_digits (fa f2) <= 18) /\
  forall w, trunc_at (rat v (a_scale (fa f1))) (a_scale (fa f2)) w ->
    Z.abs w < 2 ^ 63 /\ bin_range f2 (kept_digits m f2 w).

(** ** Numbers written as text *)

(** DECIMAL-POINT IS COMMA exchanges the two. *)
Definition point_cfg (m : cfg) : Prop :=
  (c_decpoint m = 46 /\ c_numsep m = 44) \/ (c_decpoint m = 44 /\ c_numsep m = 46).

Definition white (c : Z) : Prop := c = 32 \/ 9 <= c <= 13.

(** Digits with blanks and thousands separators between them. *)
Definition digit_text (m : cfg) (l : list Z) : Prop :=
  Forall (fun c => is_digit c \/ white c \/ c = c_numsep m) l.

(** The digits (0..9) written in a text. *)
Definition text_digits (l : list Z) : list Z :=
  map (fun c => c - 48) (filter (fun c => (48 <=? c) && (c <=? 57)) l).

(** [number_text m t v s]: [t] is blanks, an optional sign, digits, and
    optionally a decimal point with more digits; the number is v * 10^(-s). *)
Inductive number_text (m : cfg) : list Z -> Z -> Z -> Prop :=
| nt_int : forall ws sg ip neg, Forall white ws ->
    (sg = [] /\ neg = false \/ sg = [43] /\ neg = false \/ sg = [45] /\ neg = true) ->
    digit_text m ip ->
    number_text m (ws ++ sg ++ ip) (signed_value neg (text_digits ip)) 0
| nt_frac : forall ws sg ip fp neg, Forall white ws ->
    (sg = [] /\ neg = false \/ sg = [43] /\ neg = false \/ sg = [45] /\ neg = true) ->
    digit_text m ip -> digit_text m fp ->
    number_text m (ws ++ sg ++ ip ++ [c_decpoint m] ++ fp)
      (signed_value neg (text_digits ip ++ text_digits fp)) (Z.of_nat (length (text_digits fp))).

(** The text in front of its first decimal point. *)
Fixpoint before_point (m : cfg) (t : list Z) : list Z :=
  match t with
  | [] => []
  | c :: r => if c =? c_decpoint m then [] else c :: before_point m r
  end.

(** A character that cannot occur at this place of a number: [p] is what
    precedes it (after the sign). *)
Definition foreign (m : cfg) (sg p : list Z) (x : Z) : Prop :=
  ~ (is_digit x \/ white x \/ x = c_numsep m) /\
  (x = c_decpoint m -> In (c_decpoint m) p) /\
  (x = 43 \/ x = 45 -> sg <> [] \/ text_digits p <> []).
