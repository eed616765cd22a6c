(** Statistical intrinsic functions: libcob/intrinsic.c 401-409, 2190-2310,
    2333-2369 (RANGE is [intr_range] of Intr.v), 2446-2514. *)
From Coq Require Import Sorting.Permutation Sorting.Sorted.
From Verif Require Import Base Field Sign Decimal Numeric Move Edited MoveAll Compare Dates Intr.
Local Open Scope Z_scope.

(** What MIDRANGE and MEDIAN return: one of the arguments, or a COMP-2 item
    (make_double_entry) to which the decimal [d] is converted by
    cob_decimal_get_field; the conversion to floating point is not modelled. *)
Inductive stat_result := Arg (f : field) | Comp2 (d : decimal).

(** mpz_set_ui (d2.value, 2); d2.scale = 0; cob_decimal_div (&d1, &d2), as in
    2214-2216 and 2258-2260. *)
Definition by_count (d : decimal) (n : nat) : decimal := fst (dec_div d (mkDec (Z.of_nat n) 0)).

(** FUNCTION MIDRANGE, 2190-2219 (comparisons as in RANGE). *)
Definition intr_midrange (m : cfg) (col : option (list Z)) (args : list field) : outcome stat_result :=
  do r1 <- intr_min m col args;
  do r2 <- intr_max m col args;
  match nth_error args (fst r1), nth_error args (fst r2) with
  | Some lo, Some hi =>
    do x1 <- set_field m lo;
    do x2 <- set_field m hi;
    Ok (Comp2 (by_count (dec_add (fst x1) (fst x2)) 2))
  | _, _ => UB
  end.

(** What qsort may leave in field_alloc (2246) when comp_field (401-409) is the
    comparison: any arrangement of the arguments in which no item compares
    greater than the next one.  (The comparison function of numeric items
    leaves them as they are.) *)
Definition comp_field_le (m : cfg) (col : option (list Z)) (x y : field) : Prop :=
  exists c, cob_cmp m col (item x) (item y) = Ok (c, x, y) /\ c <= 0.
Definition qsort_leaves (m : cfg) (col : option (list Z)) (args sorted : list field) : Prop :=
  Permutation args sorted /\ Sorted (comp_field_le m col) sorted.

(** FUNCTION MEDIAN, 2221-2267; [sorted] is the array after qsort. *)
Definition intr_median (m : cfg) (args sorted : list field) : outcome stat_result :=
  match args with
  | [] => UB
  | [f] => Ok (Arg f)
  | _ =>
    let i := (length args / 2)%nat in
    if (length args mod 2 =? 1)%nat then
      match nth_error sorted i with Some f => Ok (Arg f) | None => UB end
    else
      match nth_error sorted (i - 1), nth_error sorted i with
      | Some a, Some b =>
        do x1 <- set_field m a;
        do x2 <- set_field m b;
        Ok (Comp2 (by_count (dec_add (fst x1) (fst x2)) 2))
      | _, _ => UB
      end
  end.

(** The loop that adds up the arguments, 2288-2294, 2472-2478. *)
Fixpoint total (m : cfg) (fs : list field) (d : decimal) : outcome decimal :=
  match fs with
  | [] => Ok d
  | f :: r => do x <- set_field m f; total m r (dec_add d (fst x))
  end.

(** for (i = 0; n; n /= 10, ++i) ;  (2302, 2504): a long long has at most 19 digits. *)
Fixpoint count_digits (fuel : nat) (n : Z) (i : Z) : Z :=
  match fuel with O => i | S g => if n =? 0 then i else count_digits g (Z.quot n 10) (i + 1) end.

(** The end of MEAN and VARIANCE, 2299-2309, 2501-2511: the decimal is stored
    once as an integer to see how many digits its integer part has, and then
    with as many decimals as 18 digits leave. *)
Definition store_18 (m : cfg) (d : decimal) : outcome field :=
  do st <- get_field m d s18 no_opt;
  let i := count_digits 19 (binary_get_int64 (st_f st)) 0 in
  let scale := if i <=? 18 then 18 - i else 0 in
  do st2 <- get_field m d (fresh (bin_attr 18 scale true) 8) no_opt;
  Ok (st_f st2).

(** FUNCTION MEAN, 2269-2310. *)
Definition intr_mean (m : cfg) (args : list field) : outcome field :=
  do d <- total m args (mkDec 0 0);
  store_18 m (by_count d (length args)).

(** The second loop of VARIANCE, 2490-2498. *)
Fixpoint deviations (m : cfg) (fs : list field) (mean acc : decimal) : outcome decimal :=
  match fs with
  | [] => Ok acc
  | f :: r =>
    do x <- set_field m f;
    let e := dec_sub (fst x) mean in
    deviations m r mean (dec_add acc (dec_mul e e))
  end.

(** FUNCTION VARIANCE, 2446-2514. *)
Definition intr_variance (m : cfg) (args : list field) : outcome field :=
  if (length args =? 1)%nat then set_int m s18 0
  else
    do d <- total m args (mkDec 0 0);
    do v <- deviations m args (by_count d (length args)) (mkDec 0 0);
    store_18 m (by_count v (length args)).
