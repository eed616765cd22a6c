(** FUNCTION PRESENT-VALUE and STANDARD-DEVIATION: libcob/intrinsic.c 2516-2625. *)
From Verif Require Import Base Field Sign Decimal Numeric Move Edited MoveAll Compare Dates Intr Stats.
Local Open Scope Z_scope.

(** The loop of PRESENT-VALUE, 2606-2618: [d1] is 1 plus the rate, [i] the
    number of the period, [d4] the sum so far. *)
Fixpoint pv_loop (m : cfg) (d1 : decimal) (fs : list field) (i : Z) (d4 : decimal) : outcome decimal :=
  match fs with
  | [] => Ok d4
  | f :: r =>
    do x <- set_field m f;
    do d3 <- (if 1 <? i then dec_pow d1 (mkDec i 0) else Ok d1);
    pv_loop m d1 r (i + 1) (dec_add d4 (fst (dec_div (fst x) d3)))
  end.

(** FUNCTION PRESENT-VALUE, 2581-2624: the decimal that is converted to the
    COMP-2 result (0 when there are not two arguments, 2592-2598). *)
Definition intr_present_value (m : cfg) (args : list field) : outcome decimal :=
  match args with
  | rate :: amounts =>
    if (length args <? 2)%nat then Ok (mkDec 0 0)
    else
      do x <- set_field m rate;
      pv_loop m (dec_add (fst x) (mkDec 1 0)) amounts 1 (mkDec 0 0)
  | [] => Ok (mkDec 0 0)
  end.

(** FUNCTION STANDARD-DEVIATION, 2515-2579: the decimal that is converted to
    COMP-2 and whose square root is then taken; [None] is the item with 0 that
    is returned for one argument, 2525-2529. *)
Definition intr_standard_deviation (m : cfg) (args : list field) : outcome (option decimal) :=
  if (length args =? 1)%nat then Ok None
  else
    do d <- total m args (mkDec 0 0);
    do v <- deviations m args (by_count d (length args)) (mkDec 0 0);
    Ok (Some (by_count v (length args))).
