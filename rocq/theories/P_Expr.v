(** Theorems C62: the parser of expressions and conditions. *)
From Coq Require Import QArith.
From Verif Require Import Base Field Sign Decimal SpecNum Numeric Move SpecMove Compute SpecCompute ComputeProofs ComputeStore ComputeMain.
From Verif Require Import ExprParse SpecExpr ExprProofs ExprCond.
Local Open Scope Z_scope.

(** ** C62: every arithmetic expression is read with the standard precedence and
    associativity. *)
Theorem C62_arithmetic : forall ts e, arithmetic ts e -> parse ts = Accepted e.
Proof. intros ts e [H _]. now apply parse_arithmetic. Qed.
Print Assumptions C62_arithmetic.

(** ** C62: every condition is read with the standard precedence, and every
    abbreviated relation is completed from the relation before it. *)
Theorem C62_condition : forall ts t, condition ts t -> parse ts = Accepted t.
Proof. exact parse_condition. Qed.
Print Assumptions C62_condition.

(** So no sentence has two readings. *)
Theorem C62_unambiguous : forall ts,
  (forall t t', condition ts t -> condition ts t' -> t = t') /\
  (forall e e', arithmetic ts e -> arithmetic ts e' -> e = e') /\
  (forall e t, arithmetic ts e -> condition ts t -> False).
Proof.
  intros ts. split; [|split].
  - intros t t' H H'. apply parse_condition in H, H'. congruence.
  - intros e e' H H'. apply C62_arithmetic in H, H'. congruence.
  - intros e t H H'. pose proof (C62_arithmetic _ _ H) as P. pose proof (parse_condition _ _ H') as P'. rewrite P in P'. injection P' as <-.
    destruct H as [_ N]. destruct H' as [sub C].
    assert (B : is_bool e = true).
    { destruct (proj2 cond_ok_both _ _ _ _ _ C) as [_ K].
      destruct (K (stk start) TNull None) as (v & h & o & _ & E & B & _); [split; [reflexivity|intros Q; now contradiction Q]|exact I|].
      rewrite <- E, is_bool_expand. exact B. }
    destruct e as [| |[]|? ? ?| | | | | |]; cbn in N, B; try contradiction; discriminate.
Qed.
Print Assumptions C62_unambiguous.

(** ** C62: COMPUTE from the tokens of the expression to the stored results. *)
Fixpoint to_expr (t : tree) : option expr :=
  match t with
  | TLeaf OZero => Some EZero
  | TLeaf (ONum l) => Some l
  | TArith op x y => match to_expr x, to_expr y with Some a, Some b => Some (EBin op a b) | _, _ => None end
  | _ => None
  end.
Theorem C62_compute : forall ts e x m vals lo hi rs s, arithmetic ts e -> to_expr e = Some x ->
  within (mi s) vals x lo hi -> operands_ok (mi s) vals m x -> targets_ok m s rs -> (forall q, computes (mi s) vals x q -> moderate q) ->
  exists t s', parse ts = Accepted t /\ to_expr t = Some x /\ run m (SCompute rs x) s = Ok s' /\
    ((exists q, computes (mi s) vals x q /\ stored_all m rs (fun _ => q) s s') \/
     (fails (mi s) vals x /\ mi s' = mi s /\ mx s' = true)).
Proof.
  intros ts e x m vals lo hi rs s A X W O T M. destruct (assign_ok m vals x lo hi rs s W O T M) as (s' & R & P).
  exists e, s'. split; [now apply C62_arithmetic|]. split; [exact X|]. split; assumption.
Qed.
Print Assumptions C62_compute.

(** ** Examples *)
Definition A_ := ONum (ERef 0). Definition B_ := ONum (ERef 1). Definition C_ := ONum (ERef 2). Definition D_ := ONum (ERef 3).
Definition T_ := OText 0.
Definition va := TLeaf A_. Definition vb := TLeaf B_. Definition vc := TLeaf C_. Definition vd := TLeaf D_.

(** A - B - C * - (D + A) ** B ** 2 *)
Definition ex1 : list inp :=
  [IX A_; IArith ASub; IX B_; IArith ASub; IX C_; IArith AMul; IArith ASub; IOpen; IX D_; IArith AAdd; IX A_; IClose; IArith APow; IX B_; IArith APow; IX (ONum (ELit 0 [2] 0))].
Definition ex1t : tree :=
  TArith ASub (TArith ASub va vb)
    (TArith AMul vc (TArith APow (TArith APow (TArith ASub (TLeaf OZero) (TArith AAdd vd va)) vb) (TLeaf (ONum (ELit 0 [2] 0))))).
Lemma leaf_at : forall n o, data o -> (n <= 4)%nat -> phrase n [IX o] (TLeaf o).
Proof. induction n as [|n IH]; intros o D L; [now apply ph_operand|]. apply ph_up; [apply IH; [exact D|lia]|lia]. Qed.
Lemma up_to : forall k n ts e, phrase n ts e -> (n + k <= 4)%nat -> phrase (n + k) ts e.
Proof.
  induction k as [|k IH]; intros n ts e H L; [now rewrite Nat.add_0_r|].
  replace (n + S k)%nat with (S n + k)%nat by lia. apply IH; [|lia]. apply ph_up; [exact H|lia].
Qed.
Example C62_arithmetic_ex : arithmetic ex1 ex1t /\ parse ex1 = Accepted ex1t.
Proof.
  assert (L : forall n o, data o -> (n <= 4)%nat -> phrase n [IX o] (TLeaf o)) by exact leaf_at.
  split; [|vm_compute; reflexivity]. split; [|exact I].
  assert (P1 : phrase 1 [IArith ASub; IOpen; IX D_; IArith AAdd; IX A_; IClose] (TArith ASub (TLeaf OZero) (TArith AAdd vd va))).
  { apply (ph_minus (IOpen :: [IX D_; IArith AAdd; IX A_] ++ [IClose])); [|exact I]. apply ph_paren.
    apply (ph_binary AAdd [IX D_] vd [IX A_] va); try exact I; apply L; try exact I; cbn; lia. }
  apply (ph_up 1) in P1; [|lia].
  pose proof (ph_binary APow _ _ [IX B_] vb P1 (L 1%nat B_ I ltac:(lia)) I I) as P2.
  pose proof (ph_binary APow _ _ [IX (ONum (ELit 0 [2] 0))] _ P2 (L 1%nat (ONum (ELit 0 [2] 0)) I ltac:(lia)) I I) as P3.
  pose proof (ph_binary AMul [IX C_] vc _ _ (L 3%nat C_ I ltac:(lia)) P3 I I) as P4.
  pose proof (ph_binary ASub [IX A_] va [IX B_] vb (L 4%nat A_ I ltac:(lia)) (L 3%nat B_ I ltac:(lia)) I I) as P5.
  exact (ph_binary ASub _ _ _ _ P5 P4 I I).
Qed.

(** A = B OR NOT C AND NOT < D OR T IS NOT NUMERIC *)
Definition ex2 : list inp :=
  [IX A_; IRel REq; IX B_; IOr; INot; IX C_; IAnd; INot; IRel RLt; IX D_; IOr; IX T_; INot; IClass CNumeric].
Definition ex2t : tree :=
  TOr (TOr (TRel REq va vb) (TAnd (TNot (TRel REq va vc)) (TRel RGe va vd))) (TNot (TClass CNumeric (TLeaf T_))).
Example C62_condition_ex : condition ex2 ex2t /\ parse ex2 = Accepted ex2t.
Proof.
  split; [|vm_compute; reflexivity]. exists None.
  refine (c_or None [IX A_; IRel REq; IX B_; IOr; INot; IX C_; IAnd; INot; IRel RLt; IX D_] _ (Some (va, RGe)) [IX T_; INot; IClass CNumeric] _ None _ _).
  - refine (c_or None [IX A_; IRel REq; IX B_] _ (Some (va, REq)) [INot; IX C_; IAnd; INot; IRel RLt; IX D_] _ (Some (va, RGe)) _ _).
    + apply c_up; [|lia]. apply c_up; [|lia]. apply c_simple.
      refine (s_relation false None [IX A_] va false [IRel REq] REq [IX B_] vb _ (ro_plain REq) _ _); try (apply leaf_at; [exact I|lia]). discriminate.
    + refine (c_and (Some (va, REq)) [INot; IX C_] _ (Some (va, REq)) [INot; IRel RLt; IX D_] _ (Some (va, RGe)) _ _).
      * apply c_up; [|lia]. apply c_not. apply s_object; [apply leaf_at; [exact I|lia]|]. intros _ Z; exact Z.
      * apply c_simple. refine (s_operator va REq true [INot; IRel RLt] RGe [IX D_] vd (ro_not RLt) _). apply leaf_at; [exact I|lia].
  - apply c_up; [|lia]. apply c_simple. refine (s_class false (Some (va, RGe)) T_ true CNumeric I _). discriminate.
Qed.

(** ** Refuted: sentences of the standard grammar outside the theorems *)

(** A = B AND NOT ZERO = C is compiled as A = B AND A = C: NOT ZERO is taken for
    a sign test and dropped. *)
Theorem C62_not_zero_refuted :
  parse [IX A_; IRel REq; IX B_; IAnd; INot; IX OZero; IRel REq; IX C_] = Accepted (TAnd (TRel REq va vb) (TRel REq va vc)).
Proof. vm_compute. reflexivity. Qed.
Print Assumptions C62_not_zero_refuted.

(** NOT A NOT = B is rejected; after another relation it is accepted, but as a
    comparison of a truth value with B. *)
Theorem C62_double_not_refuted :
  parse [INot; IX A_; INot; IRel REq; IX B_] = Rejected /\
  parse [IX A_; IRel REq; IX B_; IAnd; INot; IX C_; INot; IRel REq; IX D_] =
    Accepted (TAnd (TRel REq va vb) (TRel RNe (TNot (TRel REq va vc)) vd)).
Proof. split; vm_compute; reflexivity. Qed.
Print Assumptions C62_double_not_refuted.

(** The compiler aborts on A OR B AND C when these are not conditions (an
    operator 0 is met). *)
Theorem C62_abort_refuted : parse [IX A_; IOr; IX B_; IAnd; IX C_] = Crashed.
Proof. vm_compute. reflexivity. Qed.
Print Assumptions C62_abort_refuted.
