(** Methods that read many objects (kernel/Stream.st and, for do:,
    kernel/StreamOps.st).  The count of iterations is bounded by fuel. *)
From Verif Require Import Base Pipe.

(** do: of OneOfEachStream (StreamOps.st:563-571) ... *)
Fixpoint do_each (fuel n : nat) (ss : list strm) : outcome (list obj) :=
  match n with
  | O => OutOfFuel
  | S n =>
    olet r := each (run fuel) Next ss in
    match fst r with
    | None => Ok []
    | Some l => olet q := do_each fuel n (snd r) in Ok (Tuple l :: q)
    end
  end.
(** ... and of the others (Stream.st:363-372): the arguments of the block.  EndOfStream
    is signalled by no next here. *)
Fixpoint do_all (fuel n : nat) (s : strm) : outcome (list obj) :=
  match s with
  | OneOfEach ss _ => do_each fuel n ss
  | _ =>
    match n with
    | O => OutOfFuel
    | S n =>
      olet r := ask (run fuel) AtEnd s in
      if fst r then Ok []
      else olet v := run fuel Next (snd r) in olet q := do_all fuel n (snd v) in Ok (fst v :: q)
    end
  end.

(** linesDo: (Stream.st:351-361) *)
Fixpoint lines_do (fuel n : nat) (s : strm) : outcome (list obj) :=
  match n with
  | O => OutOfFuel
  | S n =>
    olet r := ask (run fuel) AtEnd s in
    if fst r then Ok []
    else olet v := run fuel (Line []) (snd r) in olet q := lines_do fuel n (snd v) in Ok (fst v :: q)
  end.

(** upTo: (Stream.st:223-234).  The answer is made with the species of the stream, which
    holds only some objects; storing another fails. *)
Fixpoint up_to (fuel n : nat) (holds : obj -> bool) (x : obj) (s : strm) : outcome (list obj * strm) :=
  match n with
  | O => OutOfFuel
  | S n =>
    olet r := ask (run fuel) AtEnd s in
    if fst r then Ok ([], snd r)
    else
      olet v := run fuel Next (snd r) in
      if eqb (fst v) x then Ok ([], snd v)
      else if holds (fst v) then olet q := up_to fuel n holds x (snd v) in Ok (fst v :: fst q, snd q)
      else Err
  end.

(** splitAt: (Stream.st:174-185) *)
Fixpoint split_at (fuel n : nat) (holds : obj -> bool) (x : obj) (s : strm) : outcome (list (list obj)) :=
  match n with
  | O => OutOfFuel
  | S n' =>
    olet r := ask (run fuel) AtEnd s in
    if fst r then Ok []
    else olet v := up_to fuel n holds x (snd r) in olet q := split_at fuel n' holds x (snd v) in Ok (fst v :: q)
  end.

(** skipTo: (Stream.st:543-551) *)
Fixpoint skip_to (fuel n : nat) (x : obj) (s : strm) : outcome (bool * strm) :=
  match n with
  | O => OutOfFuel
  | S n =>
    olet r := ask (run fuel) AtEnd s in
    if fst r then Ok (false, snd r)
    else olet v := run fuel Next (snd r) in if eqb (fst v) x then Ok (true, snd v) else skip_to fuel n x (snd v)
  end.

(** skip: (Stream.st:529-541) with a positive argument *)
Fixpoint skip (fuel k : nat) (s : strm) : outcome (bool * strm) :=
  match k with
  | O => Ok (true, s)
  | S k =>
    olet r := ask (run fuel) AtEnd s in
    if fst r then Ok (false, snd r) else olet v := run fuel Next (snd r) in skip fuel k (snd v)
  end.

(** nextAvailable:into:startingAt: (Stream.st:149-164) into a new collection that holds
    only some objects. *)
Fixpoint available (fuel k : nat) (holds : obj -> bool) (s : strm) : outcome (list obj * strm) :=
  match k with
  | O => Ok ([], s)
  | S k =>
    olet r := ask (run fuel) AtEnd s in
    if fst r then Ok ([], snd r)
    else
      olet v := run fuel Next (snd r) in
      if holds (fst v) then olet q := available fuel k holds (snd v) in Ok (fst v :: fst q, snd q) else Err
  end.

(** nextAvailable:putAllOn: takes no more than this (Stream.st:123). *)
Definition buffer : nat := 1024.
(** contents and upToEnd, with nextPutAllOn: and nextAvailablePutAllOn: (Stream.st:187-204,
    305-310, 578-586) *)
Fixpoint contents (fuel n : nat) (holds : obj -> bool) (s : strm) : outcome (list obj) :=
  match n with
  | O => OutOfFuel
  | S n =>
    olet r := ask (run fuel) AtEnd s in
    if fst r then Ok []
    else
      olet v := available fuel buffer holds (snd r) in
      olet q := contents fuel n holds (snd v) in Ok (fst v ++ q)
  end.
