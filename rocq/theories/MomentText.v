(** How DateTimes, Dates, Times and Durations are printed and read, kernel/AnsiDates.st,
    kernel/Date.st and kernel/Time.st.  A stream is the list of the characters left.
    Simplified: characters are ASCII; a number is printed as its decimal digits. *)
From Coq Require Import Ascii String.
From Verif Require Import Base Dates Moment.
Local Open Scope Z_scope.

Definition text := list ascii.
(** asInteger of a Character. *)
Definition code (c : ascii) : Z := Z.of_N (N_of_ascii c).
(** isDigit, isLetter, isAlphaNumeric and isSeparator, kernel/Character.st:301-341; the table is
    that of kernel/Character.st:60-180. *)
Definition is_digit (c : ascii) : bool := (48 <=? code c) && (code c <=? 57).
Definition is_upper (c : ascii) : bool := (65 <=? code c) && (code c <=? 90).
Definition is_letter (c : ascii) : bool := is_upper c || ((97 <=? code c) && (code c <=? 122)).
Definition is_sep (c : ascii) : bool :=
  (code c =? 32) || (code c =? 9) || (code c =? 10) || (code c =? 12) || (code c =? 13).
(** asLowercase, kernel/Character.st. *)
Definition lower (c : ascii) : ascii := if is_upper c then ascii_of_N (Z.to_N (code c + 32)) else c.

(** The decimal digits of a non-negative Integer, printOn: of kernel/Integer.st. *)
Definition digit (d : Z) : ascii := ascii_of_N (Z.to_N (48 + d)).
Fixpoint dec_fuel (k : nat) (n : Z) (acc : text) : text :=
  match k with
  | O => acc
  | S k => if n <? 10 then digit n :: acc else dec_fuel k (n / 10) (digit (n mod 10) :: acc)
  end.
Definition dec (n : Z) : text := dec_fuel (S (Z.to_nat (Z.log2 n))) n [].
Definition print_int (n : Z) : text := if n <? 0 then "-"%char :: dec (- n) else dec n.
(** next: (n < 10 ifTrue: [1] ifFalse: [0]) put: $0; print: n, kernel/AnsiDates.st:450-468. *)
Definition pad2 (n : Z) : text := (if n <? 10 then ["0"%char] else []) ++ print_int n.

(** The value of a run of digits; asNumber with Number class>>readFrom:, kernel/Number.st:62-120:
    an optional sign and digits, 0 when there is none. *)
Definition dval (c : ascii) : Z := code c - 48.
Definition value (t : text) : Z := fold_left (fun a c => 10 * a + dval c) t 0.
Definition as_number (t : text) : Z :=
  match t with
  | c :: r => if Ascii.eqb c "-" then - value r else value t
  | [] => 0
  end.

(** Duration>>printOn:, kernel/AnsiDates.st:735-756. *)
Definition print_pos (s : Z) : text :=
  print_int (dur_days s) ++ [":"%char] ++ pad2 (dur_hours s) ++ [":"%char] ++ pad2 (dur_minutes s) ++ [":"%char] ++ pad2 (dur_seconds s).
Definition print_duration (s : Z) : text := if s <? 0 then "-"%char :: print_pos (- s) else print_pos s.

(** Time>>printOn:, kernel/Time.st:416-427. *)
Definition print_time (s : Z) : text :=
  print_int (dur_hours s) ++ [":"%char] ++ pad2 (dur_minutes s) ++ [":"%char] ++ pad2 (dur_seconds s).

(** DateTime>>printOn:, kernel/AnsiDates.st:443-476.  Simplified: the floor of the logarithm is
    exact; it fails for the year 0 (the logarithm is not a finite number). *)
Definition print_offset (o : Z) : text :=
  (if o <? 0 then "-"%char else "+"%char) :: pad2 (Z.abs (dur_hours o)) ++ [":"%char] ++ pad2 (Z.abs (dur_minutes o)) ++
  (if dur_seconds o =? 0 then [] else ":"%char :: print_int (dur_seconds o)).
Definition print_clock (x : moment) : text :=
  pad2 (hour x) ++ [":"%char] ++ pad2 (minute x) ++ [":"%char] ++ pad2 (second x).
Definition print_moment (x : moment) : outcome text :=
  let y := year (m_date x) in
  if y =? 0 then Err
  else let ds := dec (Z.abs y) in
  Ok ((if y <? 0 then "-"%char else " "%char) :: repeat "0"%char (4 - List.length ds) ++ ds ++
      ["-"%char] ++ pad2 (month (m_date x)) ++ ["-"%char] ++ pad2 (day (m_date x)) ++ ["T"%char] ++
      print_clock x ++ print_offset (ofs x)).

(** Date>>printOn:, kernel/Date.st:591-601, with shortNameOfMonth:, 121-127. *)
Definition short_names : list text := map list_ascii_of_string
  ["Jan"; "Feb"; "Mar"; "Apr"; "May"; "Jun"; "Jul"; "Aug"; "Sep"; "Oct"; "Nov"; "Dec"]%string.
Definition short_name (m : Z) : outcome text :=
  if 1 <=? m then match nth_error short_names (Z.to_nat (m - 1)) with Some t => Ok t | None => Err end else Err.
Definition print_date (x : date) : outcome text :=
  olet n := short_name (month x) in
  Ok (print_int (day x) ++ ["-"%char] ++ n ++ ["-"%char] ++ print_int (year x)).

(** MonthNameDict, kernel/Date.st:80-90, and indexOfMonth:, 114-119; a missing key is an error. *)
Definition month_names : list (text * Z) :=
  map (fun p => (list_ascii_of_string (fst p), snd p))
  [("january", 1); ("jan", 1); ("february", 2); ("feb", 2); ("march", 3); ("mar", 3); ("april", 4); ("apr", 4);
   ("may", 5); ("june", 6); ("jun", 6); ("july", 7); ("jul", 7); ("august", 8); ("aug", 8);
   ("september", 9); ("sep", 9); ("october", 10); ("oct", 10); ("november", 11); ("nov", 11);
   ("december", 12); ("dec", 12)]%string.
Fixpoint text_eqb (a b : text) : bool :=
  match a, b with
  | [], [] => true
  | x :: a, y :: b => Ascii.eqb x y && text_eqb a b
  | _, _ => false
  end.
Definition index_of_month (t : text) : outcome Z :=
  match find (fun p => text_eqb (fst p) (map lower t)) month_names with Some p => Ok (snd p) | None => Err end.

(** The characters that satisfy a test, then what is left without the one that stopped:
    the inner loops of kernel/Date.st:260-270 and kernel/Time.st:261-262. *)
Fixpoint run (p : ascii -> bool) (s : text) : text * text :=
  match s with
  | [] => ([], [])
  | c :: s' => if p c then let (a, r) := run p s' in (c :: a, r) else ([], s')
  end.

(** One part of a date, kernel/Date.st:253-276: an empty part is an error (at: 1 of an empty
    String); the flag says that it was a name. *)
Fixpoint skip_to_part (s : text) : text :=
  match s with
  | [] => []
  | c :: s' => if negb (is_letter c || is_digit c) && negb (Ascii.eqb c "-") then skip_to_part s' else s
  end.
Definition read_part (s : text) : outcome (Z * bool * text) :=
  match skip_to_part s with
  | [] => Err
  | c :: s' =>
      if is_letter c
      then let (a, r) := run is_letter s' in olet m := index_of_month (c :: a) in Ok (m, true, r)
      else let (a, r) := run is_digit s' in Ok (as_number (c :: a), false, r)
  end.

(** Date class>>readFrom:, kernel/Date.st:247-316.  The variable month is the place of the last
    name. *)
Definition read_date (s : text) : outcome (date * text) :=
  olet p1 := read_part s in
  let '(t1, n1, s1) := p1 in
  olet p2 := read_part s1 in
  let '(t2, n2, s2) := p2 in
  if n1 && negb n2 && (31 <? t2)
  then olet x := new_day_month_year 1 t1 t2 in Ok (x, s2)
  else
  olet p3 := read_part s2 in
  let '(t3, n3, s3) := p3 in
  olet x :=
    (if negb (n1 || n2 || n3)
     then if (1 <=? t1) && (t1 <=? 31)
          then if t1 <=? 12 then new_day_month_year t2 t1 t3 else new_day_month_year t1 t2 t3
          else new_day_month_year t3 t2 t1
     else if n1 && negb n2 && negb n3 then new_day_month_year t2 t1 t3
     else new_day_month_year t1 t2 t3) in
  Ok (x, s3).

(** The loop of Duration class>>readFrom:, kernel/AnsiDates.st:604-620.  [k] bounds the turns, [i]
    is the place, [c] the last character seen; peek at the end is nil, which does not understand
    isDigit. *)
Fixpoint digits_of (s : text) : text * text :=
  match s with
  | c :: s' => if is_digit c then let (a, r) := digits_of s' in (c :: a, r) else ([], s)
  | [] => ([], [])
  end.
Definition stops (c : ascii) : bool := is_sep c || Ascii.eqb c "+" || Ascii.eqb c "-".
Fixpoint read_hms (k : nat) (i : Z) (c : ascii) (h : Z * Z * Z) (s : text) : outcome (Z * Z * Z * text) :=
  match k with
  | O => OutOfFuel
  | S k =>
      match s with
      | [] => Ok (h, [])
      | c0 :: r =>
          if stops c then Ok (h, s)
          else let s := if 1 <? i then r else s in
          if 4 <? i then Ok (h, s)
          else match s with
          | [] => Err
          | d :: _ =>
              if is_digit d
              then let (ds, s) := digits_of s in
                let c := match s with [] => d | e :: _ => e end in
                let '(x, y, z) := h in let v := as_number ds in
                let h := if i =? 4 then (x * 24 + y, z, v)
                         else if i =? 1 then (v, y, z) else if i =? 2 then (x, v, z) else (x, y, v) in
                read_hms k (i + 1) c h s
              else Ok (h, s)
          end
      end
  end.
(** Duration class>>readFrom:, kernel/AnsiDates.st:592-622. *)
Definition read_duration (s : text) : outcome (Z * text) :=
  let '(sg, s) := match s with
                  | c :: r => if Ascii.eqb c "-" then (-1, r) else if Ascii.eqb c "+" then (1, r) else (1, s)
                  | [] => (1, s)
                  end in
  olet p := read_hms 6 1 ":"%char (0, 0, 0) s in
  let '(x, y, z, s) := p in Ok ((x * 3600 + y * 60 + z) * sg, s).

(** Time class>>readFrom:, kernel/Time.st:250-266; [c] is the last character read. *)
Fixpoint time_run (c : ascii) (s : text) : text * ascii * text :=
  match s with
  | [] => ([], c, [])
  | d :: s' => if is_digit d then let '(a, e, r) := time_run d s' in (d :: a, e, r) else ([], d, s')
  end.
Definition time_part (c : ascii) (s : text) : Z * ascii * text :=
  match s with
  | [] => (0, c, s)
  | _ :: _ => if is_sep c then (0, c, s) else let '(a, e, r) := time_run c s in (as_number a, e, r)
  end.
Definition read_time (s : text) : Z * text :=
  let '(h, c, s) := time_part ":"%char s in
  let '(m, c, s) := time_part c s in
  let '(x, c, s) := time_part c s in
  (time_of (h * 3600 + m * 60 + x), s).

(** skipSeparators, kernel/Stream.st. *)
Fixpoint skip_seps (s : text) : text :=
  match s with
  | c :: s' => if is_sep c then skip_seps s' else s
  | [] => []
  end.

(** DateTime class>>readFrom:, kernel/AnsiDates.st:110-125. *)
Definition read_moment (s : text) : outcome (moment * text) :=
  olet p := read_date s in
  let '(x, s) := p in
  let x := mkM x 0 0 in
  let s := match s with c :: r => if Ascii.eqb c "T" then r else skip_seps s | [] => [] end in
  olet q := (match s with
             | c :: _ => if is_digit c then read_duration s else Ok (0, s)
             | [] => read_duration s
             end) in
  let '(t, s) := q in
  let s := skip_seps s in
  match s with
  | c :: _ =>
      if Ascii.eqb c "+" || Ascii.eqb c "-"
      then olet r := read_duration s in let '(o, s) := r in
           let y := plus x t in Ok (mkM (m_date y) (secs y) o, s)
      else Ok (plus x t, s)
  | [] => Ok (plus x t, s)
  end.
