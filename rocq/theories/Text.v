(** Strings: matching, splitting, quoting, comparing and reading numbers, kernel/CharArray.st. A string is the
    list of the codes of its characters. *)
From Verif Require Import Base Replace SeqOps.

(** LowerTable (kernel/Character.st:60-96) as used by asLowercase and asLowercaseValue (lines 389-395, 494-500);
    characters beyond the table are unchanged. *)
Definition lower (c : Z) : Z := if (65 <=? c) && (c <=? 90) then c + 32 else c.
(** isSeparator: space, cr, tab, nl, newPage (kernel/Character.st:86-91, 336-341). *)
Definition is_separator (c : Z) : bool := (c =? 32) || (c =? 13) || (c =? 9) || (c =? 10) || (c =? 12).
(** The codes of 0 and 9, of star, hash and minus. *)
Definition is_digit (c : Z) : bool := (48 <=? c) && (c <=? 57).
Definition star := 42.
Definition hash := 35.
Definition minus := 45.

(** ** match: *)
(** The loop of matchSubstring:in:at: over the places where the rest of the pattern may match after a star, [n]
    of them from [ss] downwards (kernel/CharArray.st:722-733). *)
Fixpoint star_loop (f : Z -> outcome (option Z)) (ss : Z) (n : nat) : outcome (option Z) :=
  match n with
  | O => Ok None
  | S n =>
      olet r := f ss in
      match r with Some r => Ok (Some r) | None => star_loop f (ss - 1) n end
  end.
(** matchSubstring:in:at: (kernel/CharArray.st:710-739); [p] is the pattern from there on, None is nil. *)
Fixpoint match_substring (p t : list Z) (s : Z) : outcome (option Z) :=
  match p with
  | [] => Ok (Some (s - 1))
  | pc :: p =>
      if pc =? star then star_loop (match_substring p t) (size t + 1) (Z.to_nat (size t + 1 - s + 1))
      else if size t <? s then Ok None
      else if pc =? hash then match_substring p t (s + 1)
      else
        olet c := at_ t s in
        if pc =? c then match_substring p t (s + 1) else Ok None
  end.
(** match:ignoreCase: and match: (kernel/CharArray.st:129-160). *)
Definition match_ (p t : list Z) (ignore_case : bool) : outcome bool :=
  let (p, t) := if ignore_case then (map lower p, map lower t) else (p, t) in
  olet r := match_substring p t 1 in
  Ok (match r with Some r => r =? size t | None => false end).
(** The loop of indexOf:matchCase:startingAt: (kernel/CharArray.st:176-184). *)
Fixpoint index_loop (p t : list Z) (i : Z) (n : nat) : outcome (option (Z * Z)) :=
  match n with
  | O => Ok None
  | S n =>
      olet r := match_substring p t i in
      match r with Some r => Ok (Some (i, r)) | None => index_loop p t (i + 1) n end
  end.
(** indexOf:matchCase:startingAt: (kernel/CharArray.st:162-185); the ends of the interval answered. *)
Definition index_of (t p : list Z) (match_case : bool) (i : Z) : outcome (option (Z * Z)) :=
  let (p, t) := if match_case then (p, t) else (map lower p, map lower t) in
  index_loop p t i (Z.to_nat (size t - i + 1)).

(** ** Splitting *)
(** The loop of subStrings, substrings: and subStringsChar: (kernel/CharArray.st:250-260, 296-305, 340-349),
    [i] being the index of the first character left; [sep] is isSeparator, inclusion in or equality with the
    argument. *)
Fixpoint split_loop (sep : Z -> bool) (s : list Z) (last i : Z) (n : nat) (oc : list (list Z)) : outcome (list (list Z)) :=
  match n with
  | O =>
      if last <=? size s
      then olet w := copy_from_to 0 true s last (size s) in Ok (oc ++ [w])
      else Ok oc
  | S n =>
      olet c := at_ s i in
      if sep c then
        if last =? i then split_loop sep s (i + 1) (i + 1) n oc
        else
          olet w := copy_from_to 0 true s last (i - 1) in
          split_loop sep s (i + 1) (i + 1) n (oc ++ [w])
      else split_loop sep s last (i + 1) n oc
  end.
(** subStrings (kernel/CharArray.st:263-282) and its relatives. *)
Definition sub_strings (sep : Z -> bool) (s : list Z) : outcome (list (list Z)) := split_loop sep s 1 1 (length s) [].
(** subStrings: (kernel/CharArray.st:308-329): a string of one character is that character. *)
Definition sub_strings_of (s seps : list Z) : outcome (list (list Z)) :=
  match seps with
  | [c] => sub_strings (fun d => d =? c) s
  | _ => sub_strings (fun d => existsb (Z.eqb d) seps) s
  end.
(** The inner loop of trimSeparators, from [stop] down to [start] (kernel/CharArray.st:683-685). *)
Fixpoint trim_end (s : list Z) (start stop : Z) (n : nat) : outcome (option (list Z)) :=
  match n with
  | O => Ok None
  | S n =>
      olet c := at_ s stop in
      if is_separator c then trim_end s start (stop - 1) n
      else olet w := copy_from_to 0 true s start stop in Ok (Some w)
  end.
(** The outer loop (kernel/CharArray.st:678-686). *)
Fixpoint trim_loop (s : list Z) (start : Z) (n : nat) : outcome (list Z) :=
  match n with
  | O => Ok []
  | S n =>
      olet c := at_ s start in
      if is_separator c then trim_loop s (start + 1) n
      else
        olet w := trim_end s start (size s) (Z.to_nat (size s - start + 1)) in
        match w with Some w => Ok w | None => trim_loop s (start + 1) n end
  end.
(** trimSeparators (kernel/CharArray.st:670-687). *)
Definition trim_separators (s : list Z) : outcome (list Z) := trim_loop s 1 (length s).

(** ** Quoting for the shell *)
(** The characters put into the table (kernel/CharArray.st:495-501). *)
Definition shell_specials : list Z :=
  [32; 39; 34; 96; 124; 94; 62; 91; 61; 60; 59; 40; 41; 42; 38; 36; 34; 33; 35; 126; 123; 125; 63; 92].
(** table at: c ifAbsent: [0] (kernel/CharArray.st:505). *)
Definition shell_table (c : Z) : Z := if existsb (Z.eqb c) shell_specials then 1 else 0.
(** The sum of line 504-505. *)
Definition shell_count (s : list Z) : Z := fold_left (fun n c => n + shell_table c) s 0.
(** The loop of withUnixShellEscapes (kernel/CharArray.st:510-516). *)
Fixpoint escape_loop (fuel : nat) (s r : list Z) (i j num : Z) : outcome (list Z * Z * Z) :=
  match fuel with
  | O => OutOfFuel
  | S fuel =>
      if j <? num then
        olet ch := at_ s i in
        olet (r, j) :=
          (if shell_table ch =? 0 then Ok (r, j)
           else match at_put r (j + i) 92 with Some r => Ok (r, j + 1) | None => Err end) in
        match at_put r (j + i) ch with
        | Some r => escape_loop fuel s r (i + 1) j num
        | None => Err
        end
      else Ok (r, i, j)
  end.
(** withUnixShellEscapes (kernel/CharArray.st:489-520). *)
Definition shell_escapes (s : list Z) : outcome (list Z) :=
  let num := shell_count s in
  if num =? 0 then Ok s
  else
    olet r := copy_empty 0 (size s + num) in
    olet (r, i, j) := escape_loop (S (length s)) s r 1 0 num in
    replacing true r (j + i) (size s + num) s i.

(** ** Comparing *)
(** The loop of caseInsensitiveCompareTo: (kernel/CharArray.st:701-707). *)
Fixpoint compare_loop (a b : list Z) (i : Z) (n : nat) : outcome (option Z) :=
  match n with
  | O => Ok None
  | S n =>
      olet x := at_ a i in
      olet y := at_ b i in
      if lower x =? lower y then compare_loop a b (i + 1) n else Ok (Some (lower x - lower y))
  end.
(** caseInsensitiveCompareTo: (kernel/CharArray.st:689-708). *)
Definition compare_to (a b : list Z) : outcome Z :=
  olet r := compare_loop a b 1 (Nat.min (length a) (length b)) in
  Ok (match r with Some r => r | None => size a - size b end).
(** <, <=, > and >= (kernel/CharArray.st:87-119) and sameAs: (lines 121-128). *)
Definition lt_ (a b : list Z) : outcome bool := olet c := compare_to a b in Ok (c <? 0).
Definition le_ (a b : list Z) : outcome bool := olet c := compare_to a b in Ok (c <=? 0).
Definition gt_ (a b : list Z) : outcome bool := olet c := compare_to a b in Ok (0 <? c).
Definition ge_ (a b : list Z) : outcome bool := olet c := compare_to a b in Ok (0 <=? c).
Definition same_as (a b : list Z) : outcome bool :=
  if size a =? size b then olet c := compare_to a b in Ok (c =? 0) else Ok false.

(** ** isNumeric *)
(** The two loops of isNumeric (kernel/CharArray.st:650-660). What next answers at the end of the stream, nil,
    does not understand isDigit: Err. *)
Fixpoint numeric_fraction (s : list Z) : outcome bool :=
  match s with
  | [] => Err
  | [c] => Ok (is_digit c)
  | c :: s => if is_digit c then numeric_fraction s else Ok false
  end.
Fixpoint is_numeric (s : list Z) : outcome bool :=
  match s with
  | [] => Ok true
  | c :: s => if is_digit c then is_numeric s else if c =? 46 then numeric_fraction s else Ok false
  end.
