(** Specification vocabulary for STRING and UNSTRING. *)
From Verif Require Import Base Field SpecInspect.

(** ** STRING *)

(** The part of the sender [src] that is transferred: all of it (DELIMITED BY
    SIZE, no delimiter in it), or what stands before the first delimiter. *)
Inductive delimited : option (list Z) -> list Z -> list Z -> Prop :=
| by_size : forall src, delimited None src src
| by_found : forall d src p, first_occurrence src 0 (length src) d p -> delimited (Some d) src (firstn p src)
| by_not_found : forall d src, (forall p, ~ occurs_at src p d) -> delimited (Some d) src src.

(** [text] written into [dst] from position [off] on, as far as there is room. *)
Definition written (dst : list Z) (off : nat) (text : list Z) : list Z :=
  let n := Nat.min (length text) (length dst - off) in
  firstn off dst ++ firstn n text ++ skipn (off + n) dst.

(** ** UNSTRING *)

(** One receiving operation starting at position [from]: the text assigned, the
    delimiter reported, the separator characters passed over. *)
Inductive piece (src : list Z) (dlms : list (list Z * bool)) (from : nat)
  : list Z -> option (list Z) -> list Z -> Prop :=
| piece_delimited : forall p k d all r,
    (from <= p)%nat -> nth_error dlms k = Some (d, all) -> occurs_at src p d ->
    (* no delimiter before, none of higher precedence here *)
    (forall q d' a', (from <= q < p)%nat -> In (d', a') dlms -> ~ occurs_at src q d') ->
    (forall j d' a', (j < k)%nat -> nth_error dlms j = Some (d', a') -> ~ occurs_at src p d') ->
    (* ALL: every repetition belongs to the separator *)
    (1 <= r)%nat -> occurs_at src p (concat (repeat d r)) ->
    (if all then ~ occurs_at src p (concat (repeat d (S r))) else r = 1%nat) ->
    piece src dlms from (slice src from p) (Some d) (concat (repeat d r))
| piece_rest : (forall q d a, (from <= q)%nat -> In (d, a) dlms -> ~ occurs_at src q d) ->
    piece src dlms from (slice src from (length src)) None [].

(** Without DELIMITED BY: as many characters as the receiver holds. *)
Definition sized_piece (src : list Z) (size from : nat) : list Z :=
  slice src from (Nat.min (from + size) (length src)).

(** The operations of a statement: [sizes] are the sizes of the receivers; a
    receiver that is reached with no characters left gets nothing. *)
Inductive unstrung (src : list Z) (dlms : list (list Z * bool))
  : nat -> list nat -> list (list Z * option (list Z) * list Z) -> Prop :=
| un_done : forall from sizes, (length src <= from)%nat \/ sizes = [] -> unstrung src dlms from sizes []
| un_piece : forall from size sizes t d sep rest, (from < length src)%nat -> dlms <> [] ->
    piece src dlms from t d sep ->
    unstrung src dlms (from + length t + length sep) sizes rest ->
    unstrung src dlms from (size :: sizes) ((t, d, sep) :: rest)
| un_sized : forall from size sizes rest, (from < length src)%nat -> dlms = [] ->
    unstrung src dlms (from + length (sized_piece src size from)) sizes rest ->
    unstrung src dlms from (size :: sizes) ((sized_piece src size from, None, []) :: rest).

(** The characters of the sender used up by the operations. *)
Definition consumed (ps : list (list Z * option (list Z) * list Z)) : list Z :=
  concat (map (fun x => fst (fst x) ++ snd x) ps).
