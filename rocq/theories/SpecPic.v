(** What a PICTURE string means (specification; independent of the compiler's
    code): the string is spelled out, and the properties of the item are read off
    the spelled-out picture. *)
From Verif Require Import Base Field SpecEdit.
Local Open Scope Z_scope.

(** ** Spelling out: c(n) stands for n times c. *)
Definition decimal_value (ds : list Z) : Z := fold_left (fun v x => 10 * v + (x - 48)) ds 0.

(** The characters of a picture, other than those of CR and DB; V cannot be
    repeated. *)
Definition body_char (c : Z) : Prop := ~ In c [67; 68; 82; 40; 41].

Inductive spells : list Z -> list Z -> Prop :=
| sp_nil : spells [] []
| sp_char : forall c s t, body_char c -> spells s t -> spells (c :: s) (c :: t)
| sp_count : forall c ds s t, body_char c -> c <> 86 ->
    Forall (fun x => 48 <= x <= 57) ds -> 1 <= decimal_value ds -> spells s t ->
    spells (c :: 40 :: ds ++ 41 :: s) (repeat c (Z.to_nat (decimal_value ds)) ++ t).

(** The ending: nothing, CR or DB. *)
Definition ending (e : list Z) : Prop := e = [] \/ e = [67; 82] \/ e = [68; 66].

Definition spelled_out (s t : list Z) : Prop :=
  exists s0 t0 e, s = s0 ++ e /\ t = t0 ++ e /\ spells s0 t0 /\ ending e.

(** ** Reading a spelled-out picture *)
Definition count (q : Z -> bool) (t : list Z) : Z := Z.of_nat (length (filter q t)).
Definition occurs (q : Z -> bool) (t : list Z) : bool := existsb q t.

(** 9, Z, * and P stand for digits; so do + and - and the currency sign after
    their first occurrence. *)
Definition digit_sym (c : Z) : bool := (c =? 57) || (c =? 90) || (c =? 42) || (c =? 80).
Definition sign_sym (c : Z) : bool := (c =? 43) || (c =? 45).
Definition digit_places (m : cfg) (t : list Z) : Z :=
  count digit_sym t + Z.max 0 (count sign_sym t - 1) + Z.max 0 (count (Z.eqb (c_currency m)) t - 1).

(** Character positions: every character but V, P and S. *)
Definition positions (t : list Z) : Z :=
  count (fun c => negb ((c =? 86) || (c =? 80) || (c =? 83))) t.

(** The decimal point: V or the point character. *)
Definition point_sym (m : cfg) (c : Z) : bool := (c =? 86) || (c =? c_decpoint m).
Fixpoint before (m : cfg) (t : list Z) : list Z :=
  match t with [] => [] | c :: r => if point_sym m c then [] else c :: before m r end.
Fixpoint after (m : cfg) (t : list Z) : list Z :=
  match t with [] => [] | c :: r => if point_sym m c then r else after m r end.

(** The picture starts with P (possibly after S and V). *)
Definition leads_P (t : list Z) : bool :=
  match filter (fun c => negb (c =? 83)) t with
  | c :: r => (c =? 80) || (c =? 86) && match r with d :: _ => d =? 80 | [] => false end
  | [] => false
  end.

(** Digits behind the decimal point; negative: zeros in front of it that are not
    stored. *)
Definition scale_of (m : cfg) (t : list Z) : Z :=
  if leads_P t then count digit_sym t
  else count digit_sym (after m t) - count (Z.eqb 80) (before m t).

(** A sign is kept or shown. *)
Definition has_sign (t : list Z) : bool :=
  occurs (fun c => (c =? 83) || sign_sym c || (c =? 67) || (c =? 68)) t.

(** Categories: numeric pictures consist of 9, S, V and P; text symbols are A, X
    (and N); editing symbols are the following ones; 0, B and / can also be
    inserted into text. *)
Definition numeric_sym (c : Z) : bool := (c =? 57) || (c =? 83) || (c =? 86) || (c =? 80).
Definition text_sym (c : Z) : bool := (c =? 65) || (c =? 88).
Definition insert_sym (c : Z) : bool := (c =? 48) || (c =? 66) || (c =? 47).
Definition edit_sym (m : cfg) (c : Z) : bool :=
  insert_sym c || (c =? 44) || (c =? 46) || (c =? 42) || (c =? 90) || (c =? 43) || (c =? 45) || (c =? 67) || (c =? 68)
  || (c =? c_currency m).

(** The decimal point and the currency sign (parser.y 1520-1583 rejects these
    currency signs, among others). *)
Definition pic_cfg (m : cfg) : Prop :=
  (c_decpoint m = 46 \/ c_decpoint m = 44) /\
  ~ In (c_currency m) [32; 40; 41; 42; 43; 44; 45; 46; 47; 48; 49; 50; 51; 52; 53; 54; 55; 56; 57;
                       65; 66; 67; 68; 78; 80; 82; 83; 86; 88; 90].

(** ** The PICTURE text of a numeric-edited picture (see SpecEdit) *)
Definition trail_source (t : trailer) : list Z :=
  match t with NoTrail => [] | TPlus => [43] | TMinus => [45] | TCR => [67; 82] | TDB => [68; 66] end.
Definition pic_source (m : cfg) (p : picture) : list Z :=
  map (sym_code m p) (p_body p) ++ trail_source (p_trail p).
(** Something besides 9 and V occurs. *)
Definition edits (p : picture) : bool :=
  has (fun s => match s with Digit | Virtual => false | _ => true end) (p_body p) ||
  match p_trail p with NoTrail => false | _ => true end.
(** Inserted blanks, zeros and slashes. *)
Definition inserts (p : picture) : Z :=
  Z.of_nat (length (filter (fun s => match s with Blank | Insert _ => true | _ => false end) (p_body p))).
(** No floating sign or currency sign behind the decimal point. *)
Definition no_float_behind (p : picture) : Prop :=
  forall a s b, p_body p = a ++ s :: b -> is_point s = true -> has is_float b = false.
(** A sign is shown. *)
Definition shows_sign (p : picture) : bool :=
  has is_float (p_body p) && match p_lead p with LCurr => false | _ => true end ||
  match p_trail p with NoTrail => false | _ => true end.
