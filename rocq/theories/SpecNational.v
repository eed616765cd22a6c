(** National text: code points and their encoding. *)
From Verif Require Import Base.
Local Open Scope Z_scope.

Definition scalar (c : Z) : Prop := 0 <= c <= 1114111.
(** UTF-8 *)
Definition encode (c : Z) : list Z :=
  if c <? 128 then [c]
  else if c <? 2048 then [192 + c / 64; 128 + c mod 64]
  else if c <? 65536 then [224 + c / 4096; 128 + (c / 64) mod 64; 128 + c mod 64]
  else [240 + c / 262144; 128 + (c / 4096) mod 64; 128 + (c / 64) mod 64; 128 + c mod 64].
Definition utf8 (t : list Z) : list Z := flat_map encode t.
(** Blanks: space and U+3000. *)
Definition blank (c : Z) : Prop := c = 32 \/ c = 12288.

(** Double-byte text. *)
Definition double (c : Z) : Prop := 0 <= c <= 65535.
Definition bytes2 (t : list Z) : list Z := flat_map (fun c => [c / 256; c mod 256]) t.
(** Bytes that are spaces and double-byte spaces only. *)
Inductive blank_bytes : list Z -> Prop :=
  | bb_nil : blank_bytes []
  | bb_space : forall l, blank_bytes l -> blank_bytes (32 :: l)
  | bb_double : forall l, blank_bytes l -> blank_bytes (129 :: 64 :: l).

(** Order of texts by code points. *)
Inductive before : list Z -> list Z -> Prop :=
  | before_end : forall b l, before [] (b :: l)
  | before_here : forall a b l m, a < b -> before (a :: l) (b :: m)
  | before_next : forall a l m, before l m -> before (a :: l) (a :: m).
