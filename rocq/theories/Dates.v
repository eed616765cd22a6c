(** Date functions: libcob/intrinsic.c 81-86, 370-374, 1241-1515, 2627-2826.
    A function returns the result item and whether it raised
    EC-ARGUMENT-FUNCTION (cob_exception_code is set to 0 on entry).  The result
    item is described by its value only; the ring of result items of
    make_field_entry is modelled in Ring.v.  The current date that
    YEAR-TO-YYYY etc. use when the third argument is omitted is a parameter. *)
From Verif Require Import Base Field Sign Decimal Numeric Move Edited MoveAll.
Local Open Scope Z_scope.

(** COB_ATTR_INIT (COB_TYPE_NUMERIC_BINARY, 8, 0, 0, NULL); COB_FIELD_INIT (4, ...):
    make_field_entry hands out zeroed storage (347-356). *)
Definition res_attr : fattr := mkAttr TBinary 8 0 false false false false false false false [].
Definition res_int : field := mkField res_attr [0; 0; 0; 0].
(** COB_ATTR_INIT (COB_TYPE_NUMERIC_DISPLAY, n, 0, 0, NULL), size n. *)
Definition disp_attr (n : Z) : fattr := mkAttr TDisplay n 0 false false false false false false false [].

(** Result of a function: item and exception flag. *)
Definition result := (field * bool)%type.

(** cob_set_int (curr_field, n); return curr_field; *)
Definition int_result (m : cfg) (n : Z) (exn : bool) : outcome result :=
  do r <- set_int m res_int n; Ok (r, exn).

(** Day tables, 81-86. *)
Definition normal_days : list Z := [0;31;59;90;120;151;181;212;243;273;304;334;365].
Definition leap_days : list Z := [0;31;60;91;121;152;182;213;244;274;305;335;366].
Definition normal_month_days : list Z := [0;31;28;31;30;31;30;31;31;30;31;30;31].
Definition leap_month_days : list Z := [0;31;29;31;30;31;30;31;31;30;31;30;31].

(** Table access, undefined outside. *)
Definition tab (t : list Z) (i : Z) : outcome Z :=
  if i <? 0 then UB else match nth_error t (Z.to_nat i) with Some x => Ok x | None => UB end.

(** leap_year, 370-374; C division truncates. *)
Definition leap_year (y : Z) : bool :=
  ((Z.rem y 4 =? 0) && negb (Z.rem y 100 =? 0)) || (Z.rem y 400 =? 0).

(** while (days > leapyear) { days -= leapyear; ++baseyear; leapyear = ...; },
    1264-1272; [fuel] bounds the number of iterations. *)
Fixpoint year_loop (fuel : nat) (days year len : Z) : outcome (Z * Z) :=
  if len <? days then
    match fuel with
    | O => NotModelled
    | S g => year_loop g (days - len) (year + 1) (if leap_year (year + 1) then 366 else 365)
    end
  else Ok (days, year).

(** for (i = 0; i < 13; ++i) ..., 1273-1285: returns i and the remaining days. *)
Fixpoint month_loop (todo : nat) (i : Z) (year days : Z) : outcome (Z * Z) :=
  match todo with
  | O => Ok (i, days)
  | S t =>
    do x <- tab (if leap_year year then leap_days else normal_days) i;
    if days <=? x then
      do p <- tab (if leap_year year then leap_days else normal_days) (i - 1);
      Ok (i, days - p)
    else month_loop t (i + 1) year days
  end.

(** snprintf "%w.wd" of n >= 0: at least w digits. *)
Definition fmt_d (w : nat) (n : Z) : list Z :=
  let s := mpz_get_str n in repeat 48 (w - length s) ++ s.
(** snprintf (buff, 15, ...) keeps 14 characters; memcpy (data, buff, n). *)
Definition fmt_cut (n : nat) (s : list Z) : list Z := firstn n (firstn 14 s).

(** FUNCTION DATE-OF-INTEGER, 1241-1289. *)
Definition date_of_integer (m : cfg) (src : field) : outcome result :=
  do a <- get_int m src;
  let days := fst a in
  if (days <? 1) || (3067671 <? days) then Ok (mkField (disp_attr 8) (repeat 48 8), true)
  else
    do r <- year_loop (Z.to_nat days) days 1601 365;
    do r2 <- month_loop 13 0 (snd r) (fst r);
    Ok (mkField (disp_attr 8) (fmt_cut 8 (fmt_d 4 (snd r) ++ fmt_d 2 (fst r2) ++ fmt_d 2 (snd r2))), false).

(** FUNCTION DAY-OF-INTEGER, 1291-1325. *)
Definition day_of_integer (m : cfg) (src : field) : outcome result :=
  do a <- get_int m src;
  let days := fst a in
  if (days <? 1) || (3067671 <? days) then Ok (mkField (disp_attr 7) (repeat 48 7), true)
  else
    do r <- year_loop (Z.to_nat days) days 1601 365;
    Ok (mkField (disp_attr 7) (fmt_cut 7 (fmt_d 4 (snd r) ++ fmt_d 3 (fst r))), false).

(** while (baseyear != year) { totaldays += 366 or 365; ++baseyear; }, 1376-1383;
    [todo] is the number of iterations, year - baseyear. *)
Fixpoint total_loop (todo : nat) (base total : Z) : Z * Z :=
  match todo with
  | O => (base, total)
  | S t => total_loop t (base + 1) (total + if leap_year base then 366 else 365)
  end.

(** The tests shared by INTEGER-OF-DATE (1343-1374) and TEST-DATE-YYYYMMDD
    (1455-1484): 0 if the date is accepted, else 1 (year), 2 (month), 3 (day). *)
Definition check_date (n : Z) : outcome Z :=
  let year := Z.quot n 10000 in
  if (year <? 1601) || (9999 <? year) then Ok 1
  else
    let indate := Z.rem n 10000 in
    let month := Z.quot indate 100 in
    if (month <? 1) || (12 <? month) then Ok 2
    else
      let days := Z.rem indate 100 in
      if (days <? 1) || (31 <? days) then Ok 3
      else
        do x <- tab (if leap_year year then leap_month_days else normal_month_days) month;
        if x <? days then Ok 3 else Ok 0.

(** FUNCTION INTEGER-OF-DATE, 1327-1395. *)
Definition integer_of_date (m : cfg) (src : field) : outcome result :=
  do a <- get_int m src;
  let n := fst a in
  do c <- check_date n;
  if negb (c =? 0) then int_result m 0 true
  else
    let year := Z.quot n 10000 in
    let month := Z.quot (Z.rem n 10000) 100 in
    let days := Z.rem (Z.rem n 10000) 100 in
    let t := total_loop (Z.to_nat (year - 1601)) 1601 0 in
    do x <- tab (if leap_year (fst t) then leap_days else normal_days) (month - 1);
    int_result m (snd t + x + days) false.

(** The tests of INTEGER-OF-DAY (1414-1426) and TEST-DAY-YYYYDDD (1502-1512). *)
Definition check_day (n : Z) : Z :=
  let year := Z.quot n 1000 in
  if (year <? 1601) || (9999 <? year) then 1
  else
    let days := Z.rem n 1000 in
    if (days <? 1) || (365 + (if leap_year year then 1 else 0) <? days) then 2 else 0.

(** FUNCTION INTEGER-OF-DAY, 1397-1439. *)
Definition integer_of_day (m : cfg) (src : field) : outcome result :=
  do a <- get_int m src;
  let n := fst a in
  if negb (check_day n =? 0) then int_result m 0 true
  else
    let year := Z.quot n 1000 in
    let t := total_loop (Z.to_nat (year - 1601)) 1601 0 in
    int_result m (snd t + Z.rem n 1000) false.

(** FUNCTION TEST-DATE-YYYYMMDD, 1441-1486. *)
Definition test_date (m : cfg) (src : field) : outcome result :=
  do a <- get_int m src;
  do c <- check_date (fst a);
  int_result m c false.

(** FUNCTION TEST-DAY-YYYYDDD, 1488-1515. *)
Definition test_day (m : cfg) (src : field) : outcome result :=
  do a <- get_int m src;
  int_result m (check_day (fst a)) false.

(** The windowing step shared by YEAR-TO-YYYY (2668-2684), DATE-TO-YYYYMMDD
    (2733-2749) and DAY-TO-YYYYDDD (2801-2817): None = argument rejected.
    [xqtyear + interval] is an int addition. *)
Definition window (year interval xqtyear : Z) : outcome (option Z) :=
  if (xqtyear <? 1601) || (9999 <? xqtyear) then Ok None
  else if negb (is_intb (xqtyear + interval)) then UB
  else
    let maxyear := xqtyear + interval in
    if (maxyear <? 1700) || (9999 <? maxyear) then Ok None
    else if year <=? Z.rem maxyear 100 then Ok (Some (year + 100 * Z.quot maxyear 100))
    else Ok (Some (year + 100 * (Z.quot maxyear 100 - 1))).

(** Optional arguments: interval defaults to 50, the year to the current one. *)
Definition opt_int (m : cfg) (f : option field) (dflt : Z) : outcome Z :=
  match f with None => Ok dflt | Some f => do a <- get_int m f; Ok (fst a) end.

(** FUNCTION YEAR-TO-YYYY, 2627-2688. *)
Definition year_to_yyyy (m : cfg) (now : Z) (src : field) (iv xq : option field) : outcome result :=
  do a <- get_int m src;
  do interval <- opt_int m iv 50;
  do xqtyear <- opt_int m xq now;
  let year := fst a in
  if (year <? 0) || (99 <? year) then int_result m 0 true
  else
    do w <- window year interval xqtyear;
    match w with None => int_result m 0 true | Some y => int_result m y false end.

(** FUNCTION DATE-TO-YYYYMMDD, 2690-2756 (unit = 10000) and DAY-TO-YYYYDDD,
    2758-2824 (unit = 1000). *)
Definition to_yyyy_gen (unit : Z) (m : cfg) (now : Z) (src : field) (iv xq : option field) : outcome result :=
  do a <- get_int m src;
  let rest := Z.rem (fst a) unit in
  let year := Z.quot (fst a) unit in
  do interval <- opt_int m iv 50;
  do xqtyear <- opt_int m xq now;
  if (year <? 0) || (999999 <? year) then int_result m 0 true
  else
    do w <- window year interval xqtyear;
    match w with
    | None => int_result m 0 true
    | Some y =>
      if is_intb (y * unit) && is_intb (y * unit + rest) then int_result m (y * unit + rest) false else UB
    end.
Definition date_to_yyyymmdd := to_yyyy_gen 10000.
Definition day_to_yyyyddd := to_yyyy_gen 1000.
