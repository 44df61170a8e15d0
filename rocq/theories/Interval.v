(** Interval, kernel/Interval.st, of Integers. *)
From Verif Require Import Base.
Local Open Scope Z_scope.

Record interval := mkI { start : Z; stop : Z; step : Z }.

(** The loop of do:, kernel/Interval.st:87-100.  With step 0 it does not end. *)
Fixpoint loop (up : bool) (stop step : Z) (fuel : nat) (i : Z) : outcome (list Z) :=
  if (if up then i <=? stop else stop <=? i) then
    match fuel with
    | O => OutOfFuel
    | S n => olet l := loop up stop step n (i + step) in Ok (i :: l)
    end
  else Ok [].

(** do:, the elements visited.  A loop that ends takes at most |stop - start| + 1 rounds. *)
Definition do_ (v : interval) : outcome (list Z) :=
  loop (0 <? step v) (stop v) (step v) (S (Z.to_nat (Z.abs (stop v - start v)))) (start v).

(** size, kernel/Interval.st:141-148. *)
Definition size (v : interval) : outcome Z :=
  if 0 <? step v
  then (if start v <=? stop v then Ok ((stop v - start v) / step v + 1) else Ok 0)
  else (if stop v <=? start v
        then (if step v =? 0 then Err else Ok ((stop v - start v) / step v + 1))
        else Ok 0).

(** isEmpty, kernel/Interval.st:134-139. *)
Definition is_empty (v : interval) : bool := Bool.eqb (0 <? step v) (stop v <? start v).

(** at:, kernel/Interval.st:165-172. *)
Definition at_ (v : interval) (i : Z) : outcome Z :=
  if 1 <=? i then
    olet n := size v in
    if i <=? n then Ok (start v + step v * (i - 1)) else Err
  else Err.

(** first, last, kernel/Interval.st:242-255. *)
Definition first (v : interval) : outcome Z := if is_empty v then Err else Ok (start v).
Definition last (v : interval) : outcome Z :=
  if is_empty v then Err
  else if step v =? 0 then Err else Ok (stop v - (stop v - start v) mod step v).

(** collect:, kernel/Interval.st:102-123: the result is an Array of [size] elements, filled
    from index [i] on.  The elements are those given to the block. *)
Fixpoint collect_loop (up : bool) (stop step : Z) (fuel : nat) (j : Z) (i n : Z) : outcome (list Z) :=
  if (if up then j <=? stop else stop <=? j) then
    match fuel with
    | O => OutOfFuel
    | S f =>
        if (1 <=? i) && (i <=? n)
        then olet l := collect_loop up stop step f (j + step) (i + 1) n in Ok (j :: l)
        else Err
    end
  else Ok [].
Definition collect (v : interval) : outcome (Z * list Z) :=
  olet n := size v in
  olet l := collect_loop (0 <? step v) (stop v) (step v) (S (Z.to_nat (Z.abs (stop v - start v)))) (start v) 1 n in
  Ok (n, l).

(** reverse, kernel/Interval.st:150-158. *)
Definition reverse (v : interval) : outcome interval :=
  olet n := size v in
  olet a := at_ v n in
  olet b := at_ v 1 in
  Ok (mkI a b (- step v)).

(** copyFrom:to:, kernel/Interval.st:197-216, of an exact interval. *)
Definition copy_from_to (v : interval) (a b : Z) : outcome interval :=
  if b <? a then
    (if b =? a - 1 then Ok (mkI (start v) (start v - step v) (step v)) else Err)
  else
    olet l := at_ v b in
    olet f := at_ v a in
    Ok (mkI f l (step v)).

(** =, kernel/Interval.st:179-188, of two Intervals. *)
Definition equal (v w : interval) : outcome bool :=
  if is_empty v then Ok (is_empty w)
  else if is_empty w then Ok false
  else
    olet fv := first v in olet fw := first w in
    if fv =? fw then
      olet lv := last v in olet lw := last w in
      if lv =? lw then Ok (step v =? step w) else Ok false
    else Ok false.

(** hash, kernel/Interval.st:190-195. *)
Definition hash (v : interval) : Z := Z.land ((start v + stop v + stop v) * step v) 1073741823.
