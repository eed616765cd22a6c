(** Theorems C61: arithmetic statements. *)
From Coq Require Import QArith Qabs.
From Verif Require Import Base BaseFacts Field Sign Decimal SpecNum Numeric SpecStore NumFacts.
From Verif Require Import DispProofs DecProofs BinProofs PackedProofs StoreProofs P_Num.
From Verif Require Import BinOps Move Edited MoveAll SpecMove MoveProofs SpecEdit EditStore EditStoreProofs Compute SpecCompute ComputeProofs ComputeStore ComputeMain.
From Verif Require Import P_Edit P_EditStore.
Local Open Scope Z_scope.

(** ** C61: ADD, SUBTRACT, MULTIPLY, DIVIDE (with and without GIVING) and
    COMPUTE without division: every receiver gets the exact result, rounded
    once; the operands are those before the statement; a zero divisor changes
    nothing and raises the size exception. *)
Theorem C61_statement : forall m vals st s, fine m s vals st ->
  (forall t, In t (receivers st) -> moderate (meaning (mi s) vals st (fst t))) -> receivers st <> [] ->
  exists s', run m st s = Ok s' /\
    ((divisor (mi s) vals st == 0)%Q -> mi s' = mi s /\ mx s' = true) /\
    (~ (divisor (mi s) vals st == 0)%Q -> stored_all m (receivers st) (meaning (mi s) vals st) s s').
Proof. exact statement_ok. Qed.
Print Assumptions C61_statement.

(** ** C61: COMPUTE with any expression.  Quotients inside it are cut at 37 or
    more places, nothing else is; a zero divisor anywhere leaves all receivers
    as they were. *)
Theorem C61_compute : forall m vals e lo hi ts s, within (mi s) vals e lo hi -> operands_ok (mi s) vals m e ->
  targets_ok m s ts -> (forall q, computes (mi s) vals e q -> moderate q) ->
  exists s', run m (SCompute ts e) s = Ok s' /\
    ((exists q, computes (mi s) vals e q /\ stored_all m ts (fun _ => q) s s') \/
     (fails (mi s) vals e /\ mi s' = mi s /\ mx s' = true)).
Proof. exact assign_ok. Qed.
Print Assumptions C61_compute.

(** Without division, the value is the exact one. *)
Theorem C61_exact : forall items vals e, has_div e = false ->
  (forall q, computes items vals e q -> (q == exact items vals e)%Q) /\ ~ fails items vals e.
Proof.
  intros items vals e H. split; [intros q C; now apply computes_exact|]. intros F. apply fails_div in F. congruence.
Qed.
Print Assumptions C61_exact.

(** ** Examples *)
Definition xa : field := mkField (disp 5 2 true false false) [49;50;51;52;117].              (* S9(3)V99, -123.45 *)
Definition xb : field := mkField (mkAttr TPacked 4 0 false false false false false false false []) [0; 4; 47]. (* 9(4) COMP-3, 42 *)
Definition xc : field := mkField (disp 5 1 true false false) [48;48;48;48;48].              (* S9(4)V9 *)
Definition xs0 : mach := mkMach (fun _ => mkDec 0 0) [xa; xb; xc; ed1] false.
Definition xv (i : nat) : Z := if (i =? 0)%nat then -12345 else if (i =? 1)%nat then 42 else 0.
Lemma xa_den : denotes false xa (-12345).
Proof. apply (den_display false (disp 5 2 true false false) true [1;2;3;4;5]); try reflexivity; try discriminate. repeat constructor; discriminate. Qed.
Lemma xb_den : denotes false xb 42.
Proof. apply (den_packed false (fa xb) false [0;0;4;2]); try reflexivity; try discriminate. repeat constructor; discriminate. Qed.
Lemma xc_den : denotes false xc 0.
Proof. apply (den_display false (disp 5 1 true false false) false [0;0;0;0;0]); try reflexivity; try discriminate. repeat constructor; discriminate. Qed.

(** COMPUTE C ROUNDED, E ROUNDED = A * B - 1.5  (SIZE ERROR given): -5186.4. *)
Definition xe : expr := EBin ASub (EBin AMul (ERef 0) (ERef 1)) (ELit 0 [1;5] 1).
Definition xst : stmt := SCompute [(2%nat, round_keep); (3%nat, round_keep)] xe.
Lemma xc_target : target_ok default_cfg xc.
Proof. split; [cbn; lia|]. left. apply (ni_display xc 5). repeat split; try reflexivity; try discriminate. lia. Qed.
Lemma ed1_target : target_ok default_cfg ed1.
Proof.
  split; [cbn; lia|]. right. exists P_Edit.pic1. destruct C60_hyp as (A & B & C & D & E & F & _).
  split; [exact A|]. split; [exact B|]. split; [exact C|]. split; [exact D|]. split; [exact E|]. rewrite F. lia.
Qed.
Lemma x_targets : forall o, targets_ok default_cfg xs0 [(2%nat, o); (3%nat, o)].
Proof.
  intros o. split; [repeat constructor; cbn; intuition; discriminate|]. intros t [<- |[<- |[]]]; cbn [fst]; split; try (cbn; lia); [apply xc_target|apply ed1_target].
Qed.
Lemma x_operands : operands_ok (mi xs0) xv default_cfg xe /\ within (mi xs0) xv xe 2 2.
Proof.
  split.
  - apply ok_bin; [apply ok_bin|].
    + apply ok_ref; [split; [cbn; lia|exact xa_den]|]. left. cbn. lia.
    + apply ok_ref; [split; [cbn; lia|exact xb_den]|]. left. cbn. lia.
    + apply ok_lit; [discriminate|repeat constructor; discriminate|lia].
  - apply (pl_sub _ _ _ _ 2 2 1 1); [|apply pl_lit; lia]. apply (pl_mul _ _ _ _ 2 2 0 0); [| |lia].
    + apply (pl_ref _ _ 0%nat 2); [reflexivity|lia].
    + apply (pl_ref _ _ 1%nat 0); [reflexivity|lia].
Qed.
Lemma small_moderate : forall v s, 0 <= s -> Z.abs v < 10 ^ 100 -> moderate (rat v s).
Proof.
  intros v s S V. unfold moderate. rewrite rat_abs, (rat_to (10 ^ 1900) 0 s S). apply rat_lt.
  eapply Z.lt_le_trans; [exact V|]. rewrite Z.sub_0_r, <- (Z.mul_1_r (10 ^ 100)).
  apply Z.mul_le_mono_nonneg; [apply Z.pow_nonneg; lia|apply Z.pow_le_mono_r; lia|lia|].
  pose proof (Z.pow_pos_nonneg 10 s ltac:(lia) S). lia.
Qed.
Example C61_hyp : fine default_cfg xs0 xv xst /\
  (forall t, In t (receivers xst) -> moderate (meaning (mi xs0) xv xst (fst t))) /\ receivers xst <> [] /\
  (meaning (mi xs0) xv xst 2 == rat (-518640) 2)%Q.
Proof.
  assert (V : (meaning (mi xs0) xv xst 2 == rat (-518640) 2)%Q) by reflexivity.
  split; [|split; [|split; [discriminate|exact V]]].
  - destruct x_operands as [O W]. split; [|split; [apply x_targets|split; [discriminate|exact I]]].
    intros e [<- |[]]. split; [|reflexivity]. split; [exact O|]. exists 2, 2. split; [exact W|lia].
  - intros t _. apply (ComputeMain.moderate_Qeq (rat (-518640) 2)); [symmetry; exact V|]. apply small_moderate; [lia|reflexivity].
Qed.
Example C61_ex : exists s', run default_cfg xst xs0 = Ok s' /\ mx s' = false /\
  map fd (mi s') = [fd xa; fd xb; [53;49;56;54;116]; [32;53;44;49;56;54;46;52;48;45]].
Proof. eexists. split; [vm_compute; reflexivity|]. split; reflexivity. Qed.
(** DIVIDE B INTO C; DIVIDE by zero. *)
Example C61_ex2 : exists s' s'', run default_cfg (SDivGiving (ERef 0) (ERef 1) [(2%nat, round_keep)]) xs0 = Ok s' /\
  fd (item s' 2) = [48;48;48;50;121] /\ mx s' = false /\
  run default_cfg (SDiv (ERef 2) [(0%nat, round_keep); (1%nat, no_opts)]) xs0 = Ok s'' /\ mi s'' = mi xs0 /\ mx s'' = true.
Proof. eexists. eexists. split; [vm_compute; reflexivity|]. split; [reflexivity|]. split; [reflexivity|]. split; [vm_compute; reflexivity|]. split; reflexivity. Qed.

(** An ADD with one operand: ADD B TO C, A. *)
Example C61_hyp2 : fine default_cfg xs0 xv (SAdd (ERef 1) [] [(2%nat, round_keep); (0%nat, round_keep)]).
Proof.
  split; [|split; [|split]].
  - intros e [<- |[]]. split; [|reflexivity]. split; [apply ok_ref; [split; [cbn; lia|exact xb_den]|left; cbn; lia]|].
    exists 0, 0. split; [|lia]. apply (pl_ref _ _ 1%nat 0); [reflexivity|lia].
  - split; [repeat constructor; cbn; intuition; discriminate|]. intros t [<- |[<- |[]]]; cbn [fst]; (split; [cbn; lia|]); [apply xc_target|].
    split; [cbn; lia|]. left. apply (ni_display _ 5). repeat split; try reflexivity; try discriminate. lia.
  - intros _ t [<- |[<- |[]]]; cbn [fst]; (split; [split; [cbn; lia|]|split; [left; cbn; lia|cbn; lia]]); [exact xc_den|exact xa_den].
  - split; [discriminate|]. split.
    + intros i [E|E]; [injection E as <-|discriminate]. cbn. lia.
    + intros t [<- |[<- |[]]]; now left.
Qed.
Example C61_ex3 : exists s', run default_cfg (SAdd (ERef 1) [] [(2%nat, round_keep); (0%nat, round_keep)]) xs0 = Ok s' /\
  map fd (mi s') = [[48;56;49;52;117]; fd xb; [48;48;52;50;48]; fd ed1].
Proof. eexists. split; [vm_compute; reflexivity|]. reflexivity. Qed.

(** ** What does not hold *)

(** ADD A TO A, B reads A again after it has changed: with A = 1, B = 0 it
    leaves B = 2. *)
Definition ra : field := mkField (disp 2 0 false false false) [48;49].
Definition rb : field := mkField (disp 2 0 false false false) [48;48].
Theorem C61_operand_reread_refuted : exists s', 
  run default_cfg (SAdd (ERef 0) [] [(0%nat, round_keep); (1%nat, round_keep)]) (mkMach (fun _ => mkDec 0 0) [ra; rb] false) = Ok s' /\
  fd (item s' 1) = [48;50] /\ (meaning [ra; rb] (fun i => if (i =? 0)%nat then 1%Z else 0%Z) (SAdd (ERef 0) [] []) 1 == 1)%Q.
Proof. eexists. split; [vm_compute; reflexivity|]. split; reflexivity. Qed.
Print Assumptions C61_operand_reread_refuted.

(** A binary item with trailing P positions (PIC 99PP COMP, holding 1200) is
    taken as its stored digits, 12. *)
Definition rp : field := mkField (mkAttr TBinary 2 (-2) false false false false false false false []) [12; 0].
Definition rt : field := mkField (disp 6 0 false false false) [48;48;48;48;48;48].
Theorem C61_scaled_binary_refuted : denotes false rp 12 /\
  exists s', run default_cfg (SCompute [(1%nat, round_keep)] (ERef 0)) (mkMach (fun _ => mkDec 0 0) [rp; rt] false) = Ok s' /\
  fd (item s' 1) = [48;48;48;48;49;50] /\ (exact [rp; rt] (fun _ => 12%Z) (ERef 0) == inject_Z 1200)%Q.
Proof.
  split; [apply (den_binary false (fa rp) [12;0]); [reflexivity|cbn; lia|repeat constructor; lia]|].
  eexists. split; [vm_compute; reflexivity|]. split; reflexivity.
Qed.
Print Assumptions C61_scaled_binary_refuted.

(** A DISPLAY item with trailing P positions, PIC 9(5)P(6): the int computed for
    it overflows. *)
Definition rq : field := mkField (disp 5 (-6) false false false) [49;50;51;52;53].
Theorem C61_scaled_display_refuted :
  run default_cfg (SCompute [(1%nat, round_keep)] (ERef 0)) (mkMach (fun _ => mkDec 0 0) [rq; rt] false) = UB.
Proof. vm_compute. reflexivity. Qed.
Print Assumptions C61_scaled_display_refuted.

(** A product with scale -128 is taken for an undefined result: with A PIC
    9(10)P(16) holding 0, COMPUTE T = A ** 8 raises SIZE ERROR. *)
Definition rz : field := mkField (disp 10 (-16) false false false) (repeat 48 10).
Theorem C61_scale_marker_refuted : exists s',
  run default_cfg (SCompute [(1%nat, round_keep)] (EBin APow (ERef 0) (ELit 0 [8] 0))) (mkMach (fun _ => mkDec 0 0) [rz; rt] false) = Ok s' /\
  mx s' = true /\ (exact [rz; rt] (fun _ => 0%Z) (EBin APow (ERef 0) (ELit 0 [8%Z] 0)) == 0)%Q.
Proof. eexists. split; [vm_compute; reflexivity|]. split; reflexivity. Qed.
Print Assumptions C61_scale_marker_refuted.
