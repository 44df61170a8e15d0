(** Streams made from streams (kernel/StreamOps.st): concatenation, selection,
    collection, lines and tuples.  An object is told apart only as far as it
    matters here; blocks are functions; two streams never share a source
    (where they do in /repo, a stream's state here is a copy).  That pastEnd
    signals is not modelled: it answers nil (kernel/Stream.st:462-468). *)
From Verif Require Import Base.

(** Objects: those that are equal only if they are the same, and arrays or strings,
    which may be equal though they are not the same. *)
Inductive obj := Atom (z : Z) | Flag (b : bool) | Nil | Tuple (l : list obj).

(** [=] ... *)
Fixpoint eqb (a b : obj) {struct a} : bool :=
  match a, b with
  | Atom x, Atom y => x =? y
  | Flag x, Flag y => Bool.eqb x y
  | Nil, Nil => true
  | Tuple l, Tuple m =>
    (fix go l m := match l, m with [], [] => true | x :: l, y :: m => eqb x y && go l m | _, _ => false end) l m
  | _, _ => false
  end.
(** ... and [==]: an array that an argument is was made by the caller. *)
Definition same (a b : obj) : bool := match a with Tuple _ => false | _ => eqb a b end.

(** The streams: a ReadStream or the like with what it has yet to give and its
    position; ConcatenatedStream (34-35) with startPos and curPos; FilteringStream
    (195-196); CollectingStream (291-292); LineStream (458-459); a PeekableStream
    (364-365) on a LineStream, the only stream here without a peek of its own;
    OneOfEachStream (508-509).  [Items] is a Collection, which is no stream. *)
Inductive strm :=
| Source (l : list obj) (pos : Z)
| Concat (ss : list strm) (start cur : Z)
| Filter (s : strm) (p : obj -> bool) (result : bool) (next : obj) (over : bool)
| Collect (s : strm) (f : obj -> obj)
| Lines (s : strm)
| Peekable (s : strm) (look : option obj)
| OneOfEach (ss : list strm) (delta : Z)
| Items (l : list obj).

(** Messages: atEnd, next, peek, peekFor:, position, nextLine (with the characters
    so far), and the private stream (78-91) and lookahead (272-282). *)
Inductive op := AtEnd | Next | Peek | PeekFor (x : obj) | Position | Line (acc : list obj) | Find | Look.

Definition CR : obj := Atom 13.
Definition LF : obj := Atom 10.

Section With.
Variable run : op -> strm -> outcome (obj * strm).
(** A message that answers a Boolean *)
Definition ask (o : op) (s : strm) : outcome (bool * strm) :=
  match run o s with Ok (Flag b, s) => Ok (b, s) | Ok _ => Err | Err => Err | UB => UB | Abort => Abort | OutOfFuel => OutOfFuel end.

(** anySatisfy: of 558-561 *)
Fixpoint any_end (ss : list strm) : outcome (bool * list strm) :=
  match ss with
  | [] => Ok (false, [])
  | s :: ss =>
    olet r := ask AtEnd s in
    if fst r then Ok (true, snd r :: ss)
    else olet q := any_end ss in Ok (fst q, snd r :: snd q)
  end.

(** The loops of next and peek, 573-577 and 591-595: nothing if one of the streams is at its end *)
Fixpoint each (o : op) (ss : list strm) : outcome (option (list obj) * list strm) :=
  match ss with
  | [] => Ok (Some [], [])
  | s :: ss =>
    olet r := ask AtEnd s in
    if fst r then Ok (None, snd r :: ss)
    else
      olet v := run o (snd r) in
      olet q := each o ss in
      Ok (option_map (cons (fst v)) (fst q), snd v :: snd q)
  end.
End With.

Fixpoint run (fuel : nat) (o : op) (s : strm) {struct fuel} : outcome (obj * strm) :=
  match fuel with
  | O => OutOfFuel
  | S fuel =>
    let run := run fuel in
    let ask := ask run in
    match o with
    | Line acc =>
      (* Stream>>nextLine, kernel/Stream.st:206-221 *)
      olet r := ask AtEnd s in
      if fst r then Ok (Tuple (rev acc), snd r)
      else
        olet v := run Next (snd r) in
        if same (fst v) CR then olet q := run (PeekFor LF) (snd v) in Ok (Tuple (rev acc), snd q)
        else if same (fst v) LF || same (fst v) Nil then Ok (Tuple (rev acc), snd v)
        else run (Line (fst v :: acc)) (snd v)
    | _ =>
    match s with
    | Source l pos =>
      (* kernel/PosStream.st:72-82, 125-147, 189-194, 221-226 *)
      match o, l with
      | AtEnd, [] => Ok (Flag true, s)
      | AtEnd, _ => Ok (Flag false, s)
      | Next, [] => Ok (Nil, s)
      | Next, x :: l => Ok (x, Source l (pos + 1))
      | Peek, [] => Ok (Nil, s)
      | Peek, x :: _ => Ok (x, s)
      | PeekFor _, [] => Ok (Flag false, s)
      | PeekFor x, y :: l => if eqb y x then Ok (Flag true, Source l (pos + 1)) else Ok (Flag false, s)
      | Position, _ => Ok (Atom pos, s)
      | _, _ => Err
      end
    | Concat ss start cur =>
      match o with
      | Find =>
        (* 78-91 *)
        match ss with
        | [] => Err
        | s :: ss =>
          olet r := ask AtEnd s in
          if fst r then
            let (start, cur) := if 0 <? cur then (start + cur, 0) else (start, cur) in
            match ss with
            | [] => Ok (Flag false, Concat [snd r] start cur)
            | _ => run Find (Concat ss start cur)
            end
          else Ok (Flag true, Concat (snd r :: ss) start cur)
        end
      (* 93-96 *)
      | AtEnd => olet r := ask Find s in Ok (Flag (negb (fst r)), snd r)
      | Position =>
        (* 142-146 *)
        olet r := ask Find s in
        match snd r with Concat _ start cur => Ok (Atom (start + cur), snd r) | _ => Err end
      | Next | Peek | PeekFor _ =>
        (* 110-140 *)
        olet r := ask Find s in
        if negb (fst r) then Ok (match o with PeekFor _ => Flag false | _ => Nil end, snd r)
        else
          match snd r with
          | Concat (s :: ss) start cur =>
            olet v := run o s in
            let cur := match o with
                       | Next => cur + 1
                       | PeekFor _ => match fst v with Flag true => cur + 1 | _ => cur end
                       | _ => cur
                       end in
            Ok (fst v, Concat (snd v :: ss) start cur)
          | _ => Err
          end
      | _ => Err
      end
    | Filter t p result next over =>
      match o with
      | Look =>
        (* 272-282 *)
        olet r := ask AtEnd t in
        if fst r then Ok (Nil, Filter (snd r) p result next true)
        else
          olet v := run Next (snd r) in
          let s := Filter (snd v) p result (fst v) over in
          if Bool.eqb (p (fst v)) result then Ok (Nil, s) else run Look s
      | AtEnd => Ok (Flag over, s)
      | Next =>
        (* 231-241 *)
        if over then Ok (Nil, s) else olet r := run Look s in Ok (next, snd r)
      | Peek => if over then Ok (Nil, s) else Ok (next, s)
      | PeekFor x =>
        (* 254-265: the comparison is [==] *)
        if over then Ok (Flag false, s)
        else if same next x then olet r := run Look s in Ok (Flag true, snd r)
        else Ok (Flag false, s)
      | _ => Err
      end
    | Collect t f =>
      match o with
      | AtEnd => olet r := ask AtEnd t in Ok (Flag (fst r), Collect (snd r) f)
      | Next | Peek =>
        (* 313-328 *)
        olet r := ask AtEnd t in
        if fst r then Ok (Nil, Collect (snd r) f)
        else olet v := run o (snd r) in Ok (f (fst v), Collect (snd v) f)
      | PeekFor _ =>
        (* 330-340: the argument is sent the message result, which it does not understand *)
        olet r := ask AtEnd t in
        if fst r then Ok (Flag false, Collect (snd r) f) else Err
      | Position => olet v := run Position t in Ok (fst v, Collect (snd v) f)
      | _ => Err
      end
    | Lines t =>
      match o with
      | AtEnd => olet r := ask AtEnd t in Ok (Flag (fst r), Lines (snd r))
      | Next => olet v := run (Line []) t in Ok (fst v, Lines (snd v))
      | Peek | PeekFor _ =>
        (* Stream>>peek and peekFor:, 646-657 and 675-687: the stream becomes another *)
        run o (Peekable t None)
      | _ => Err
      end
    | Peekable t look =>
      match o, look with
      | AtEnd, Some _ => Ok (Flag false, s)
      | AtEnd, None => olet r := ask AtEnd t in Ok (Flag (fst r), Peekable (snd r) None)
      | Next, Some v => Ok (v, Peekable t None)
      | Next, None => olet v := run (Line []) t in Ok (fst v, Peekable (snd v) None)
      | Peek, Some v => Ok (v, s)
      | Peek, None =>
        (* 414-425 *)
        olet r := ask AtEnd t in
        if fst r then Ok (Nil, Peekable (snd r) None)
        else olet v := run (Line []) (snd r) in Ok (fst v, Peekable (snd v) (Some (fst v)))
      | PeekFor x, Some v =>
        (* 427-443 *)
        Ok (Flag (eqb v x), Peekable t (if eqb v x then None else Some v))
      | PeekFor x, None =>
        olet r := ask AtEnd t in
        if fst r then Ok (Flag false, Peekable (snd r) None)
        else
          olet v := run (Line []) (snd r) in
          Ok (Flag (eqb (fst v) x), Peekable (snd v) (if eqb (fst v) x then None else Some (fst v)))
      | _, _ => Err
      end
    | OneOfEach ss delta =>
      match o with
      | AtEnd => olet r := any_end run ss in Ok (Flag (fst r), OneOfEach (snd r) delta)
      | Next | Peek =>
        olet r := each run o ss in
        Ok (match fst r with Some l => Tuple l | None => Nil end, OneOfEach (snd r) delta)
      | PeekFor x =>
        (* 584-589: if it is equal the Array of streams is sent next, which it does not understand *)
        olet r := each run Peek ss in
        if eqb (match fst r with Some l => Tuple l | None => Nil end) x then Err
        else Ok (Flag false, OneOfEach (snd r) delta)
      | Position =>
        (* 597-600 *)
        match ss with
        | [] => Err
        | t :: ss => olet v := run Position t in
          match fst v with Atom n => Ok (Atom (n - delta), OneOfEach (snd v :: ss) delta) | _ => Err end
        end
      | _ => Err
      end
    | Items _ => Err
    end
    end
  end.

(** How programs make streams (629-748): [s , t], [s select: p], ... *)
Inductive expr :=
| From (l : list obj)
| Cat (e : expr) (e' : expr)
| CatItems (e : expr) (l : list obj)
| Select (e : expr) (p : obj -> bool)
| Reject (e : expr) (p : obj -> bool)
| Map (e : expr) (f : obj -> obj)
| ByLine (e : expr)
| Zip (e : expr) (e' : expr)
| Zip3 (e e' e'' : expr).

(** [,] of Stream (631-637) and of ConcatenatedStream (66-71), which does not ask its
    argument for a readStream. *)
Definition cat (s t t' : strm) : strm :=
  match s with
  | Concat ss start cur => Concat (ss ++ [t]) start cur
  | _ => Concat [s; t'] 0 0
  end.
Definition filtered (fuel : nat) (s : strm) (p : obj -> bool) (result : bool) : outcome strm :=
  olet r := run fuel Look (Filter s p result Nil false) in Ok (snd r).
(** streams: (617-621) asks the first stream for its position *)
Definition one_of_each (fuel : nat) (ss : list strm) : outcome strm :=
  match ss with
  | [] => Err
  | s :: ss =>
    olet r := run fuel Position s in
    match fst r with Atom n => Ok (OneOfEach (snd r :: ss) n) | _ => Err end
  end.

Fixpoint build (fuel : nat) (e : expr) : outcome strm :=
  match e with
  | From l => Ok (Source l 0)
  | Cat e e' => olet s := build fuel e in olet t := build fuel e' in Ok (cat s t t)
  | CatItems e l => olet s := build fuel e in Ok (cat s (Items l) (Source l 0))
  | Select e p => olet s := build fuel e in filtered fuel s p true
  | Reject e p => olet s := build fuel e in filtered fuel s p false
  | Map e f => olet s := build fuel e in Ok (Collect s f)
  | ByLine e => olet s := build fuel e in Ok (Lines s)
  | Zip e e' => olet s := build fuel e in olet t := build fuel e' in one_of_each fuel [s; t]
  | Zip3 e e' e'' =>
    olet s := build fuel e in olet t := build fuel e' in olet u := build fuel e'' in one_of_each fuel [s; t; u]
  end.

(** Messages one after the other. *)
Fixpoint run_all (fuel : nat) (ops : list op) (s : strm) : outcome (list obj * strm) :=
  match ops with
  | [] => Ok ([], s)
  | o :: ops =>
    olet r := run fuel o s in
    olet q := run_all fuel ops (snd r) in
    Ok (fst r :: fst q, snd q)
  end.
