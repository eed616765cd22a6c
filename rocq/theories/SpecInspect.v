(** Specification vocabulary for INSPECT, independent of the run-time code.
    A text is a list of characters; positions count from 0; a region is a pair
    of positions (start, end) with the end exclusive. *)
From Verif Require Import Base Field SpecNum.

(** [pat] stands in [data] at position [p]. *)
Definition occurs_at (data : list Z) (p : nat) (pat : list Z) : Prop :=
  exists a b, data = a ++ pat ++ b /\ length a = p.

(** ... inside the region [s,e). *)
Definition within (data : list Z) (s e : nat) (pat : list Z) (p : nat) : Prop :=
  (s <= p)%nat /\ (p + length pat <= e)%nat /\ occurs_at data p pat.

Definition first_occurrence (data : list Z) (s e : nat) (pat : list Z) (p : nat) : Prop :=
  within data s e pat p /\ forall q, (s <= q < p)%nat -> ~ within data s e pat q.

(** ** BEFORE / AFTER INITIAL phrases *)
Inductive delim := Before (x : list Z) | After (x : list Z).
Inductive region_is (data : list Z) : list delim -> nat * nat -> nat * nat -> Prop :=
| reg_nil : forall r, region_is data [] r r
| reg_before : forall x ds s e p r, first_occurrence data s e x p ->
    region_is data ds (s, p) r -> region_is data (Before x :: ds) (s, e) r
| reg_before_none : forall x ds s e r, (forall p, ~ within data s e x p) ->
    region_is data ds (s, e) r -> region_is data (Before x :: ds) (s, e) r
| reg_after : forall x ds s e p r, first_occurrence data s e x p ->
    region_is data ds (p + length x, e)%nat r -> region_is data (After x :: ds) (s, e) r
| reg_after_none : forall x ds s e r, (forall p, ~ within data s e x p) ->
    region_is data ds (e, e) r -> region_is data (After x :: ds) (s, e) r.

(** ** What earlier phrases have taken *)

(** [ov i] is the character an earlier phrase has put over position [i]
    ([Some 1] for a tallying phrase), [None] if no phrase has matched it. *)
Definition overlay := nat -> option Z.

(** A match that no earlier phrase has touched. *)
Definition candidate (data : list Z) (ov : overlay) (s e : nat) (pat : list Z) (p : nat) : Prop :=
  within data s e pat p /\ forall i, (p <= i < p + length pat)%nat -> ov i = None.

(** ALL: scan from left to right, take the first candidate, continue behind it. *)
Inductive all_matches (data : list Z) (ov : overlay) (s e : nat) (pat : list Z) : nat -> list nat -> Prop :=
| all_end : forall from, (forall p, (from <= p)%nat -> ~ candidate data ov s e pat p) ->
    all_matches data ov s e pat from []
| all_take : forall from p ps, (from <= p)%nat -> candidate data ov s e pat p ->
    (forall q, (from <= q < p)%nat -> ~ candidate data ov s e pat q) ->
    all_matches data ov s e pat (p + length pat) ps ->
    all_matches data ov s e pat from (p :: ps).

(** LEADING: adjacent occurrences from the start on; an occurrence touched by an
    earlier phrase is passed over by one position. *)
Inductive leading_matches (data : list Z) (ov : overlay) (s e : nat) (pat : list Z) : nat -> list nat -> Prop :=
| lead_end : forall from, ~ within data s e pat from -> leading_matches data ov s e pat from []
| lead_take : forall from ps, candidate data ov s e pat from ->
    leading_matches data ov s e pat (from + length pat) ps ->
    leading_matches data ov s e pat from (from :: ps)
| lead_pass : forall from ps, within data s e pat from -> ~ candidate data ov s e pat from ->
    leading_matches data ov s e pat (S from) ps -> leading_matches data ov s e pat from ps.

(** TRAILING: the mirror image; [till] is the end (exclusive). *)
Inductive trailing_matches (data : list Z) (ov : overlay) (s e : nat) (pat : list Z) : nat -> list nat -> Prop :=
| trail_end : forall till, (forall p, (p + length pat = till)%nat -> ~ within data s e pat p) ->
    trailing_matches data ov s e pat till []
| trail_take : forall p ps, candidate data ov s e pat p -> trailing_matches data ov s e pat p ps ->
    trailing_matches data ov s e pat (p + length pat) (p :: ps)
| trail_pass : forall p ps, within data s e pat p -> ~ candidate data ov s e pat p ->
    trailing_matches data ov s e pat (p + length pat - 1) ps ->
    trailing_matches data ov s e pat (p + length pat) ps.

(** FIRST. *)
Inductive first_match (data : list Z) (ov : overlay) (s e : nat) (pat : list Z) : list nat -> Prop :=
| first_none : (forall p, ~ candidate data ov s e pat p) -> first_match data ov s e pat []
| first_take : forall p, candidate data ov s e pat p ->
    (forall q, (q < p)%nat -> ~ candidate data ov s e pat q) -> first_match data ov s e pat [p].

Inductive pat_kind := All | Leading | First | Trailing.
Definition matches (k : pat_kind) (data : list Z) (ov : overlay) (s e : nat) (pat : list Z) (ps : list nat) : Prop :=
  match k with
  | All => all_matches data ov s e pat s ps
  | Leading => leading_matches data ov s e pat s ps
  | First => first_match data ov s e pat ps
  | Trailing => trailing_matches data ov s e pat e ps
  end.

(** CHARACTERS: every position of the region not yet taken. *)
Definition char_positions (ov : overlay) (s e : nat) (ps : list nat) : Prop :=
  StronglySorted lt ps /\ forall i, In i ps <-> ((s <= i < e)%nat /\ ov i = None).

(** Putting [vals] over the positions [ps]. *)
Definition stamped (ov ov' : overlay) (ps : list nat) (vals : list Z) : Prop :=
  (forall p j, In p ps -> (j < length vals)%nat -> ov' (p + j)%nat = Some (nth j vals 0)) /\
  (forall i, (forall p, In p ps -> ~ (p <= i < p + length vals)%nat) -> ov' i = ov i).

(** ** A whole TALLYING statement *)
Inductive what := Chars | Pat (k : pat_kind) (pat : list Z).
Record tally_phrase := mkTally { t_what : what; t_region : list delim }.
Definition taken_by (w : what) (data : list Z) (ov : overlay) (s e : nat) (ps : list nat) : Prop :=
  match w with Chars => char_positions ov s e ps | Pat k pat => matches k data ov s e pat ps end.
Definition width (w : what) : nat := match w with Chars => 1%nat | Pat _ pat => length pat end.

(** The numbers of matches of the phrases, in order. *)
Inductive tally_counts (data : list Z) : overlay -> list tally_phrase -> list nat -> Prop :=
| tc_nil : forall ov, tally_counts data ov [] []
| tc_cons : forall ov ov' ph rest s e ps ns,
    region_is data (t_region ph) (0%nat, length data) (s, e) ->
    taken_by (t_what ph) data ov s e ps ->
    stamped ov ov' ps (repeat 1 (width (t_what ph))) ->
    tally_counts data ov' rest ns ->
    tally_counts data ov (ph :: rest) (length ps :: ns).

(** ** A whole REPLACING statement *)
Inductive rwhat := CharsBy (c : Z) | PatBy (k : pat_kind) (pat by_ : list Z).
Record rep_phrase := mkRep { r_what : rwhat; r_region : list delim }.
Inductive replaced (data : list Z) : overlay -> list rep_phrase -> overlay -> Prop :=
| rp_nil : forall ov, replaced data ov [] ov
| rp_chars : forall ov ov1 ov' c ds rest s e ps,
    region_is data ds (0%nat, length data) (s, e) ->
    char_positions ov s e ps -> stamped ov ov1 ps [c] ->
    replaced data ov1 rest ov' -> replaced data ov (mkRep (CharsBy c) ds :: rest) ov'
| rp_pat : forall ov ov1 ov' k pat by_ ds rest s e ps,
    region_is data ds (0%nat, length data) (s, e) ->
    length by_ = length pat ->
    matches k data ov s e pat ps -> stamped ov ov1 ps by_ ->
    replaced data ov1 rest ov' -> replaced data ov (mkRep (PatBy k pat by_) ds :: rest) ov'
| rp_ignored : forall ov ov' k pat by_ ds rest,
    length by_ <> length pat ->   (* replacing value of another size: phrase without effect *)
    replaced data ov rest ov' -> replaced data ov (mkRep (PatBy k pat by_) ds :: rest) ov'.

(** The text that results. *)
Definition overlaid (data : list Z) (ov : overlay) (res : list Z) : Prop :=
  length res = length data /\
  forall i, (i < length data)%nat ->
    nth i res 0 = match ov i with Some c => c | None => nth i data 0 end.

(** ** CONVERTING *)
Fixpoint lookup_char (tbl : list (Z * Z)) (c : Z) : option Z :=
  match tbl with
  | [] => None
  | (a, b) :: r => if a =? c then Some b else lookup_char r c
  end.
Definition convert_char (tbl : list (Z * Z)) (c : Z) : Z :=
  match lookup_char tbl c with Some b => b | None => c end.

(** ** The comparison cycle of the COBOL standard, for ALL phrases without
    regions: at each position the phrases are tried in order; the first that
    matches is counted and its characters are skipped. *)
Inductive cycle (data : list Z) (pats : list (list Z)) : nat -> list nat -> Prop :=
| cy_end : forall i, (length data <= i)%nat -> cycle data pats i []
| cy_none : forall i hits, (i < length data)%nat ->
    (forall p, In p pats -> ~ occurs_at data i p) ->
    cycle data pats (S i) hits -> cycle data pats i hits
| cy_hit : forall i k p hits, nth_error pats k = Some p -> occurs_at data i p ->
    (forall j q, (j < k)%nat -> nth_error pats j = Some q -> ~ occurs_at data i q) ->
    cycle data pats (i + length p) hits -> cycle data pats i (k :: hits).

(** ** The text of the subject: its characters; for a signed DISPLAY item its
    digits, the sign [neg] being kept apart. *)
Inductive subject (e : bool) (a : fattr) (neg : bool) : list Z -> list Z -> Prop :=
| sub_plain : forall t, a_sign a = false -> a_sep a = false -> subject e a neg t t
| sub_signed : forall ds, a_type a = TDisplay -> a_sign a = true -> ds <> [] -> Forall is_dig ds ->
    subject e a neg (zoned e a neg ds) (map digit_char ds).

(** The number counted into counter [i] when phrase j uses counter [idx]_j and
    matches [ns]_j times. *)
Fixpoint total (i : nat) (idx ns : list nat) : nat :=
  match idx, ns with
  | j :: idx', n :: ns' => ((if (i =? j)%nat then n else 0) + total i idx' ns')%nat
  | _, _ => 0%nat
  end.

(** The part of [data] between two positions. *)
Definition slice (data : list Z) (s e : nat) : list Z := firstn (e - s) (skipn s data).
