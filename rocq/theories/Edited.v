(** Numeric editing: libcob/move.c 683-990.
    Character codes: '9' 57, 'Z' 90, '*' 42, '+' 43, '-' 45, 'P' 80, 'V' 86,
    '0' 48, '/' 47, 'B' 66, '.' 46, ',' 44, 'C' 67, 'D' 68. *)
From Verif Require Import Base Field Sign Numeric Move.

(** Counting the digit places before the decimal point, move.c 716-741:
    returns (count, p_is_left). *)
Fixpoint count_places (m : cfg) (pic : list (Z * Z)) (count : Z) (csign ccurr : bool) : Z * bool :=
  match pic with
  | [] => (count, false)
  | (c, rep) :: r =>
    if (c =? 57) || (c =? 90) || (c =? 42) then count_places m r (count + rep) false false
    else if ccurr && (c =? c_currency m) then count_places m r (count + rep) csign ccurr
    else if csign && ((c =? 43) || (c =? 45)) then count_places m r (count + rep) csign ccurr
    else if c =? 80 then
      if count =? 0 then (count, true) else count_places m r (count + rep) false false
    else if (c =? 86) || (c =? c_decpoint m) then (count, false)
    else count_places m r count csign ccurr
  end.

(** Local variables of the main loop, move.c 743-861.  Pointers are indices
    into the sender's digits ([e_src]) and the receiver ([e_dst], [e_end],
    [e_dp]); symbols are 0 when unset. *)
Record est := mkEst {
  e_dst : Z; e_data : list Z; e_src : Z;
  e_zero : bool; e_supp : bool; e_tsign : bool; e_tcurr : bool;
  e_pad : Z; e_dp : option Z; e_end : Z;
  e_sfirst : bool; e_ssym : Z; e_csym : Z }.

(** [*dst = v]. *)
Definition put_at (d : list Z) (i v : Z) : outcome (list Z) :=
  if (0 <=? i) && (i <? Z.of_nat (length d)) then Ok (upd (Z.to_nat i) v d) else UB.

(** [(min <= src && src < max) ? *src++ : (src++, '0')]. *)
Definition fetch_src (src : list Z) (i : Z) : Z :=
  if (0 <=? i) && (i <? Z.of_nat (length src)) then nth (Z.to_nat i) src 0 else 48.

(** One picture character: one iteration of the inner loop, including the
    [++dst] of the loop header. *)
Definition edit_step (m : cfg) (src : list Z) (neg pleft : bool) (s : est) (c : Z) : outcome est :=
  let dst := e_dst s in
  let keep := fun d dst' => (* only data and dst change *)
    mkEst (dst' + 1) d (e_src s) (e_zero s) (e_supp s) (e_tsign s) (e_tcurr s)
          (e_pad s) (e_dp s) (e_end s) (e_sfirst s) (e_ssym s) (e_csym s) in
  if (c =? 48) || (c =? 47) then do d <- put_at (e_data s) dst c; Ok (keep d dst)
  else if c =? 66 then
    do d <- put_at (e_data s) dst (if e_supp s then e_pad s else 66); Ok (keep d dst)
  else if c =? 80 then
    if pleft then
      Ok (mkEst dst (e_data s) (e_src s + 1) (e_zero s) (e_supp s) (e_tsign s) (e_tcurr s)
                (e_pad s) (e_dp s) (e_end s) (e_sfirst s) (e_ssym s) (e_csym s))
    else Ok (keep (e_data s) dst)
  else if c =? 57 then
    let x := fetch_src src (e_src s) in
    do d <- put_at (e_data s) dst x;
    Ok (mkEst (dst + 1) d (e_src s + 1) (e_zero s && (x =? 48)) false true true
              (e_pad s) (e_dp s) (e_end s) (e_sfirst s) (e_ssym s) (e_csym s))
  else if c =? 86 then
    Ok (mkEst dst (e_data s) (e_src s) (e_zero s) (e_supp s) (e_tsign s) (e_tcurr s)
              (e_pad s) (Some (dst - 1)) (e_end s) (e_sfirst s) (e_ssym s) (e_csym s))
  else if (c =? 46) || (c =? 44) then
    if c =? c_decpoint m then
      do d <- put_at (e_data s) dst (c_decpoint m);
      Ok (mkEst (dst + 1) d (e_src s) (e_zero s) (e_supp s) (e_tsign s) (e_tcurr s)
                (e_pad s) (Some dst) (e_end s) (e_sfirst s) (e_ssym s) (e_csym s))
    else do d <- put_at (e_data s) dst (if e_supp s then e_pad s else c); Ok (keep d dst)
  else if (c =? 67) || (c =? 68) then
    let '(x, y) := if neg then (if c =? 67 then (67, 82) else (68, 66)) else (32, 32) in
    do d <- put_at (e_data s) dst x;
    do d <- put_at d (dst + 1) y;
    Ok (mkEst (dst + 2) d (e_src s) (e_zero s) (e_supp s) (e_tsign s) (e_tcurr s)
              (e_pad s) (e_dp s) dst (e_sfirst s) (e_ssym s) (e_csym s))
  else if (c =? 90) || (c =? 42) then
    let x := fetch_src src (e_src s) in
    let z := (x =? 48) in
    let pad := if c =? 42 then 42 else 32 in
    do d <- put_at (e_data s) dst (if e_supp s && z then pad else x);
    Ok (mkEst (dst + 1) d (e_src s + 1) (e_zero s && z) (e_supp s && z) true true
              pad (e_dp s) (e_end s) (e_sfirst s) (e_ssym s) (e_csym s))
  else if (c =? 43) || (c =? 45) then
    let x := fetch_src src (e_src s) in
    let z := (x =? 48) in
    let supp := e_supp s && z in
    let sym := if neg then 45 else if c =? 43 then 43 else 32 in
    if e_tsign s then
      do d <- put_at (e_data s) dst sym;
      Ok (mkEst (dst + 1) d (e_src s + 1) (e_zero s && z) supp (e_tsign s) (e_tcurr s)
                (e_pad s) (e_dp s) (e_end s - 1) (e_sfirst s) (e_ssym s) (e_csym s))
    else if (dst =? 0) || supp then
      do d <- put_at (e_data s) dst (e_pad s);
      Ok (mkEst (dst + 1) d (e_src s + 1) (e_zero s && z) supp (e_tsign s) (e_tcurr s)
                (e_pad s) (e_dp s) (e_end s)
                (e_sfirst s || (e_csym s =? 0)) sym (e_csym s))
    else
      do d <- put_at (e_data s) dst x;
      Ok (mkEst (dst + 1) d (e_src s + 1) (e_zero s && z) supp (e_tsign s) (e_tcurr s)
                (e_pad s) (e_dp s) (e_end s) (e_sfirst s) (e_ssym s) (e_csym s))
  else if c =? c_currency m then
    let x := fetch_src src (e_src s) in
    let z := (x =? 48) in
    let supp := e_supp s && z in
    if e_tcurr s then
      do d <- put_at (e_data s) dst (c_currency m);
      Ok (mkEst (dst + 1) d (e_src s + 1) (e_zero s && z) supp (e_tsign s) (e_tcurr s)
                (e_pad s) (e_dp s) (e_end s - 1) (e_sfirst s) (e_ssym s) (e_csym s))
    else if (dst =? 0) || supp then
      do d <- put_at (e_data s) dst (e_pad s);
      Ok (mkEst (dst + 1) d (e_src s + 1) (e_zero s && z) supp (e_tsign s) (e_tcurr s)
                (e_pad s) (e_dp s) (e_end s) (e_sfirst s) (e_ssym s) (c_currency m))
    else
      do d <- put_at (e_data s) dst x;
      Ok (mkEst (dst + 1) d (e_src s + 1) (e_zero s && z) supp (e_tsign s) (e_tcurr s)
                (e_pad s) (e_dp s) (e_end s) (e_sfirst s) (e_ssym s) (e_csym s))
  else do d <- put_at (e_data s) dst 63; Ok (keep d dst).

Fixpoint edit_loop (m : cfg) (src : list Z) (neg pleft : bool) (s : est) (pic : list Z) : outcome est :=
  match pic with
  | [] => Ok s
  | c :: r => do s' <- edit_step m src neg pleft s c; edit_loop m src neg pleft s' r
  end.

(** [!isdigit (c) && !strchr (",+-/B", c)], move.c 878 (strchr also finds NUL). *)
Definition zero_fill_char (c : Z) : bool :=
  negb (is_digitb c) &&
  negb ((c =? 44) || (c =? 43) || (c =? 45) || (c =? 47) || (c =? 66) || (c =? 0)).

(** move.c 875-882: positions [from <= i < to]. *)
Definition zero_fill (d : list Z) (from to : Z) : list Z :=
  map (fun ic => let '(i, c) := ic in
                 if (from <=? i) && (i <? to) && zero_fill_char c then 48 else c)
      (combine (map Z.of_nat (seq 0 (length d))) d).

(** move.c 886-890: from end - 1 down to 1, stop at a space; 0 if none. *)
Fixpoint last_space (d : list Z) (i : nat) : nat :=
  match i with
  | O => 0
  | S j => if nth i d 0 =? 32 then i else last_space d j
  end.

(** move.c 917-928. *)
Fixpoint replace_B (d : list Z) (pad : Z) (count : Z) (n : nat) : list Z :=
  match d, n with
  | c :: r, S k => if c =? 66 then (if count =? 0 then pad else 32) :: replace_B r pad count k
                   else c :: replace_B r pad (count + 1) k
  | _, _ => d
  end.

(** The final part, move.c 863-929. *)
Definition edit_finish (m : cfg) (bzero : bool) (s : est) : outcome (list Z) :=
  let d := e_data s in
  if e_supp s || (e_zero s && bzero) then
    if (e_pad s =? 32) || bzero then Ok (repeat 32 (length d))
    else Ok (map (fun c => if c =? c_decpoint m then c else e_pad s) d)
  else
    let d := match e_dp s with
             | Some p => zero_fill d (p + 1) (e_end s)
             | None => d
             end in
    do d <- (if (e_ssym s =? 0) && (e_csym s =? 0) then Ok d
             else if e_end s <=? 0 then UB
             else
               let i := last_space d (Z.to_nat (e_end s - 1)) in
               let '(first, second) :=
                 if negb (e_ssym s =? 0) && negb (e_csym s =? 0) then
                   if e_sfirst s then (e_csym s, e_ssym s) else (e_ssym s, e_csym s)
                 else if negb (e_ssym s =? 0) then (e_ssym s, 0) else (e_csym s, 0) in
               let d := upd i first d in
               Ok (match i with
                   | O => d
                   | S j => if second =? 0 then d else upd j second d
                   end));
    Ok (replace_B d (e_pad s) 0 (Z.to_nat (e_end s))).

(** cob_move_display_to_edited, move.c 683-932. *)
Definition display_to_edited (m : cfg) (f1 f2 : field) : outcome (field * field) :=
  let '(sign, g1) := get_sign m f1 in
  let neg := sign <? 0 in
  let '(count, pleft) := count_places m (a_pic (fa f2)) 0 true true in
  let src := data_digits g1 in
  let s0 := mkEst 0 (fd f2) (Z.of_nat (length src) - a_scale (fa f1) - count)
                  true true false false 32 None (Z.of_nat (f_size f2)) false 0 0 in
  do s <- edit_loop m src neg pleft s0 (expand_pic (a_pic (fa f2)));
  do d <- edit_finish m (a_bzero (fa f2)) s;
  Ok (put_sign m g1 sign, set_fd f2 d).

(** ** De-editing: cob_move_edited_to_display, move.c 934-990 *)

(** The scan 952-976: (digits, scale, have_point, sign). *)
Fixpoint deedit_scan (m : cfg) (l : list Z) (scale : Z) (point : bool) (sign : Z)
  : list Z * Z * bool * Z :=
  match l with
  | [] => ([], scale, point, sign)
  | c :: r =>
    if is_digitb c then
      let '(ds, sc, p, sg) := deedit_scan m r (if point then scale + 1 else scale) point sign in
      (c :: ds, sc, p, sg)
    else if (c =? 46) || (c =? 44) then
      deedit_scan m r scale (point || (c =? c_decpoint m)) sign
    else if (c =? 45) || (c =? 67) then deedit_scan m r scale point (-1)
    else deedit_scan m r scale point sign
  end.

(** move.c 978-1000: scale from the picture when no digit followed a point. *)
Fixpoint deedit_scale (pic : list (Z * Z)) (scale count : Z) (point : bool) : Z :=
  match pic with
  | [] => scale
  | (c, n) :: r =>
    if (c =? 57) || (c =? 48) || (c =? 90) || (c =? 42) then
      if point then deedit_scale r (scale + n) count point
      else deedit_scale r scale (count + n) point
    else if c =? 80 then
      if count =? 0 then deedit_scale r (scale + n) count true
      else deedit_scale r (scale - n) count point
    else if c =? 86 then deedit_scale r scale count true
    else deedit_scale r scale count point
  end.

(** buff has 64 bytes. *)
Definition edited_to_display (m : cfg) (f1 f2 : field) : outcome (field * field) :=
  let '(ds, scale, point, sign) := deedit_scan m (fd f1) 0 false 0 in
  if (64 <? length ds)%nat then UB
  else
    let scale := if scale =? 0 then deedit_scale (a_pic (fa f1)) 0 0 point else scale in
    Ok (f1, put_sign m (store_common_region f2 ds scale) sign).
