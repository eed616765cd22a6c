(** Specification vocabulary for INITIALIZE and initial values. *)
From Verif Require Import Base Layout Initialize.

Local Open Scope nat_scope.

(** The bytes at address [a] are [bs]. *)
Definition holds (m : mem) (a : nat) (bs : list Z) : Prop :=
  forall i, i < length bs -> m (a + i) = nth i bs 0%Z.

(** The image of a VALUE literal in [n] bytes: an alphanumeric literal is
    truncated or filled with spaces, ALL literal repeats. *)
Definition text_image (l : list Z) (n : nat) : list Z := firstn n (l ++ repeat 32%Z n).
Definition all_image (l : list Z) (n : nat) : list Z := map (fun i => nth (i mod length l) l 0%Z) (seq 0 n).

Section Spec.
Variable mv : src -> fld -> list Z.   (* the bytes that a MOVE leaves *)
Variable ebcdic : bool.               (* sign overpunched in EBCDIC style *)

(** Is the sign visible in the digits of zero? *)
Definition plain_digits (f : fld) : bool :=
  negb (d_signsep (a_decl (f_attr f))) && negb (ebcdic && d_psign (a_decl (f_attr f))).

Definition value_image (v : value) (f : fld) : list Z :=
  match f_cat f with
  | CNational | CNationalEd => mv (SVal v) f
  | _ =>
    match v with
    | VSpace => repeat 32%Z (f_size f)
    | VLow => repeat 0%Z (f_size f)
    | VHigh => repeat 255%Z (f_size f)
    | VQuote => repeat 34%Z (f_size f)
    | VZero => match f_usage f with
               | UDisplay => if plain_digits f then repeat 48%Z (f_size f) else mv SZero f
               | _ => mv (SVal v) f
               end
    | VNull => match f_usage f with UDisplay => repeat 0%Z (f_size f) | _ => mv (SVal v) f end
    | VNum _ => mv (SVal v) f
    | VAll l => all_image l (f_size f)
    | VText l => text_image l (f_size f)
    end
  end.

(** The default: zero for numeric and numeric-edited items and pointers, spaces
    for the others. *)
Definition default_image (f : fld) : list Z :=
  match a_cat (f_attr f) with
  | CAlphabetic | CAlnum => repeat 32%Z (f_size f)
  | CAlnumEd | CNational | CNationalEd => mv SBlank f
  | CPointer => repeat 0%Z (f_size f)
  | CNumEd => mv SZero f
  | CNumeric =>
    match f_usage f with
    | UDisplay => if plain_digits f then repeat 48%Z (f_size f) else mv SZero f
    | UPacked => mv SZero f
    | _ => repeat 0%Z (f_size f)
    end
  end.

(** The statement says something about the VALUE of items of this category. *)
Definition value_phrase (s : init_stmt) (c : cat) : bool :=
  match i_value s with None => false | Some None => true | Some (Some k) => cat_beq k c end.

(** What the statement [s] puts into an item; None: the item is left alone.
    FILLER items are left alone unless WITH FILLER is written; the phrases are
    tried in the order VALUE, REPLACING, DEFAULT; without VALUE and REPLACING
    phrases DEFAULT is understood. *)
Definition due (s : init_stmt) (f : fld) : option (list Z) :=
  match f_ch f with
  | _ :: _ =>
    match a_value (f_attr f) with
    | Some v => if value_phrase s CAlnum then Some (value_image v f) else None
    | None => None
    end
  | [] =>
    if a_filler (f_attr f) && negb (i_filler s) then None else
    match a_value (f_attr f), value_phrase s (a_cat (f_attr f)) with
    | Some v, true => Some (value_image v f)
    | _, _ =>
      match find (fun e => cat_beq (fst e) (a_cat (f_attr f))) (i_rep s) with
      | Some e => Some (mv (snd e) f)
      | None =>
        if i_def s || (match i_value s, i_rep s with None, [] => true | _, _ => false end)
        then Some (default_image f) else None
      end
    end
  end.

(** [occurrence s f d g e]: [g], displaced by [e], is an occurrence of an item
    at or below [f], displaced by [d] (displacements come from subscripts).
    REDEFINES entries are left out; an item under a group that takes its VALUE
    as a whole is not looked at. *)
Inductive occurrence (s : init_stmt) : fld -> nat -> fld -> nat -> Prop :=
| occ_here : forall f d, occurrence s f d f d
| occ_child : forall f d c k g e, In c (f_ch f) -> f_redef c = false -> k < f_occ c ->
    (value_phrase s CAlnum = true -> a_value (f_attr f) = None) ->
    occurrence s c (d + k * f_size c) g e -> occurrence s f d g e.

(** The effect of a statement on storage: every item occurrence holds what is
    due; an elementary item to which nothing is due keeps its contents, and so
    does all storage outside. *)
Definition initialized (s : init_stmt) (f : fld) (d : nat) (m m' : mem) : Prop :=
  (forall g e img, occurrence s f d g e -> due s g = Some img -> holds m' (f_off g + e) img) /\
  (forall g e x, occurrence s f d g e -> f_ch g = [] -> due s g = None ->
     f_off g + e <= x < f_off g + e + f_size g -> m' x = m x) /\
  (forall x, x < f_off f + d \/ f_off f + d + f_size f <= x -> m' x = m x).
End Spec.

(** The sizes of the generated moves, and of floating-point items. *)
Definition move_sizes (mv : src -> fld -> list Z) : Prop := forall s f, length (mv s f) = f_size f.
(** [everywhere P f]: P holds of f and all items below. *)
Inductive everywhere (P : fld -> Prop) : fld -> Prop :=
| ev : forall f, P f -> (forall c, In c (f_ch f) -> everywhere P c) -> everywhere P f.
(** Descriptions as the compiler accepts them: an item without OCCURS occurs
    once; floating-point items have 4 and 8 bytes and are numeric; ALL literals
    are not empty, nor are items with a VALUE. *)
Definition sane (f : fld) : Prop :=
  (a_occurs (f_attr f) = false -> f_occ f = 1) /\
  (f_ch f = [] -> f_usage f = UFloat -> a_cat (f_attr f) = CNumeric /\ f_size f = 4) /\
  (f_ch f = [] -> f_usage f = UDouble -> a_cat (f_attr f) = CNumeric /\ f_size f = 8) /\
  (forall l, a_value (f_attr f) = Some (VAll l) -> l <> []) /\
  (a_value (f_attr f) <> None -> 1 <= f_size f).
