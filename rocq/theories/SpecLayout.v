(** Specification vocabulary for storage layout. *)
From Verif Require Import Base Layout.

Local Open Scope nat_scope.

(** Bytes [o, o+n) lie within bytes [o', o'+n'). *)
Definition within_bytes (o n o' n' : nat) : Prop := o' <= o /\ o + n <= o' + n'.
Definition apart (o n o' n' : nat) : Prop := o + n <= o' \/ o' + n' <= o.

(** The bytes of an item with all its occurrences (OCCURS). *)
Definition all_occurrences (p : placed) : nat := d_occ (p_decl p) * p_size p.

(** The position, within its siblings, of the item that an item redefines
    (itself if it does not redefine). *)
Definition same_base (ch : list placed) (i j : nat) : Prop :=
  i <= j /\ forall k p, i < k <= j -> nth_error ch k = Some p -> d_redef (p_decl p) = true.

(** A well laid out item: all occurrences of the subordinate items lie within
    it; items that do not redefine a common item are apart, in order;
    a redefinition starts where the redefined item starts. *)
Inductive well_placed : placed -> Prop :=
| wp : forall d off size ch,
    (forall p, In p ch -> well_placed p /\ within_bytes (p_off p) (all_occurrences p) off size) ->
    (forall i j p q, i < j -> nth_error ch i = Some p -> nth_error ch j = Some q ->
       if d_redef (p_decl q) then same_base ch i j -> p_off q = p_off p
       else p_off p + all_occurrences p <= p_off q) ->
    well_placed (Placed d off size ch).

(** A path from an item up to the level 01: each is a subordinate of the next. *)
Inductive path : placed -> list placed -> placed -> Prop :=
| path_top : forall r, path r [r] r
| path_up : forall p q ups r, In p (p_ch q) -> path q ups r -> path p (p :: ups) r.
