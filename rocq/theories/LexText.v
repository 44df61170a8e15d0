(** Literals in source code: strings, symbols and characters.  libgst/lex.c,
    libgst/gst-parse.c, and the methods that print them. *)
From Verif Require Import Base Digits IntRep SmallInt IntMath IntPrint Lex.
Local Open Scope Z_scope.

(** ** strings *)

(** the value of a C string: the bytes before the first NUL; strlen, as used by
    _gst_string_new and _gst_intern_string, libgst/sym.c:1363-1370 *)
Fixpoint cstring (s : list Z) : list Z :=
  match s with
  | [] => []
  | c :: s => if c =? 0 then [] else c :: cstring s
  end.

(** string_literal, after the opening quote: the bytes put on the obstack and
    what follows; an unterminated string is an error; libgst/lex.c:665-695 *)
Fixpoint string_body (s : list Z) : outcome (list Z * list Z) :=
  match s with
  | [] => Err
  | c :: t =>
    if c =? 39 then
      match t with
      | d :: u =>
        if d =? 39 then olet (l, r) := string_body u in Ok (39 :: l, r) else Ok ([], t)
      | [] => Ok ([], [])
      end
    else olet (l, r) := string_body t in Ok (c :: l, r)
  end.

(** parse_literal on a string: the String made and what follows;
    libgst/gst-parse.c:1781-1783, libgst/comp.c:2203-2206 *)
Definition string_literal (s : list Z) : outcome (list Z * list Z) :=
  match s with
  | c :: t => if c =? 39 then olet (l, r) := string_body t in Ok (cstring l, r) else Err
  | [] => Err
  end.

(** String>>printOn:, storeLiteralOn:, displayString left aside;
    kernel/String.st:170-199 *)
Definition print_str (s : list Z) : list Z :=
  39 :: flat_map (fun c => if c =? 39 then [39; 39] else [c]) s ++ [39].

(** ** symbols *)

(** BIN_OP_CHAR in the character table; libgst/lex.c:271-356 *)
Definition bin_op_char (c : Z) : bool :=
  existsb (Z.eqb c) [37; 38; 42; 43; 44; 45; 47; 60; 61; 62; 63; 64; 92; 124; 126].

(** the letters of the character table; libgst/lex.c:299-352 *)
Definition letter_char (c : Z) : bool :=
  ((65 <=? c) && (c <=? 90)) || ((97 <=? c) && (c <=? 122)).

(** SYMBOL_CHAR in the character table: letters, digits, : _ $ ;
    libgst/lex.c:270-352 *)
Definition symbol_char (c : Z) : bool :=
  letter_char c || is_dec c || (c =? 58) || (c =? 95) || (c =? 36).

(** scan_bin_op_1: the operator and what follows; libgst/lex.c:615-656 *)
Definition scan_bin_op (s : list Z) : list Z * list Z :=
  match s with
  | [] => ([], [])
  | c :: t =>
    match t with
    | d :: u =>
      if bin_op_char d then
        if (d =? 45) && match u with e :: _ => is_dec e | [] => false end then ([c], t)
        else ([c; d], u)
      else ([c], t)
    | [] => ([c], [])
    end
  end.

(** the loop of scan_symbol; libgst/lex.c:602-605 *)
Fixpoint symbol_body (s : list Z) : list Z * list Z :=
  match s with
  | [] => ([], [])
  | c :: t => if symbol_char c then let '(l, r) := symbol_body t in (c :: l, r) else ([], s)
  end.

(** scan_symbol and parse_literal: the characters of the Symbol and what
    follows; libgst/lex.c:558-611, libgst/gst-parse.c:1785-1788.  [Err] also
    stands for the cases where # starts something else *)
Definition symbol_literal (s : list Z) : outcome (list Z * list Z) :=
  match s with
  | h :: c :: t =>
    if negb (h =? 35) then Err
    else if bin_op_char c then Ok (scan_bin_op (c :: t))
    else if c =? 39 then olet (l, r) := string_body t in Ok (cstring l, r)
    else if symbol_char c && negb (is_dec c) then
      let '(l, r) := symbol_body t in Ok (c :: l, r)
    else Err
  | _ => Err
  end.

(** Symbol>>isSimpleSymbol; kernel/Symbol.st:332-347; [self at: 1] of an empty
    Symbol is an error; isLetter and isAlphaNumeric: kernel/Character.st:308-320 *)
Definition isSimpleSymbol (s : list Z) : outcome bool :=
  match s with
  | [] => Err
  | c :: _ =>
    if letter_char c then
      Ok (forallb (fun c => letter_char c || is_dec c || (c =? 58)) s)
    else
      if Nat.ltb 2 (length s) then Ok false
      else Ok (forallb
        (fun c => existsb (Z.eqb c) [43; 45; 42; 47; 92; 60; 62; 61; 126; 44; 37; 64; 63; 38; 124]) s)
  end.

(** Symbol>>printOn:, also storeOn: and displayString; kernel/Symbol.st:321-330 *)
Definition print_symbol (s : list Z) : outcome (list Z) :=
  olet b := isSimpleSymbol s in
  Ok (35 :: if b then s else print_str s).

(** ** characters *)

(** a Character, or a UnicodeCharacter when the flag is set, and its value;
    kernel/Character.st, kernel/UniChar.st:34 *)
Definition char_obj : Type := bool * Z.

(** char_new; libgst/dict.inl:586-603; the argument is unsigned *)
Definition char_new (c : Z) : char_obj :=
  let c := uwrap32 c in
  if c <=? 127 then (false, c)
  else (true, if 1114111 <? c then 65533 else c).

(** Character>>=; libgst/prims.def:3576-3589 *)
Definition char_eq (a b : char_obj) : bool :=
  (snd b =? snd a) && ((snd a <=? 127) || Bool.eqb (fst a) (fst b)).

(** white space between tokens on one line; libgst/lex.c:239-264.  A newline is
    special in the interactive reader and not treated as white space here *)
Fixpoint skip_white (s : list Z) : list Z :=
  match s with
  | c :: t => if existsb (Z.eqb c) [9; 12; 13; 32] then skip_white t else s
  | [] => []
  end.

(** char_literal and parse_literal; libgst/lex.c:511-537,
    libgst/gst-parse.c:1814-1833; [int ival] has 32 bits *)
Definition char_literal (s : list Z) : outcome (char_obj * list Z) :=
  match s with
  | h :: c :: t =>
    if negb (h =? 36) then Err
    else if 127 <? c then Err
    else
      let plain := Ok (char_new c, t) in
      if c =? 60 then
        match skip_white t with
        | d :: _ =>
          if is_dec d then
            olet (k, s) := scan_number (skip_white t) in
            match k with
            | TInt i =>
              if 0 <=? i then
                let ival := wrap32 i in
                match skip_white s with
                | e :: _ =>
                  if e =? 62 then
                    let '(op, r) := scan_bin_op (skip_white s) in
                    match op with
                    | [_] => if 1114111 <? ival then Err else Ok (char_new ival, r)
                    | _ => Err
                    end
                  else Err
                | [] => Err
                end
              else plain
            | _ => plain
            end
          else plain
        | [] => plain
        end
      else plain
  | _ => Err
  end.

(** Character>>printCodePointOn:; kernel/Character.st:482-492 *)
Definition print_code_point (c : Z) : outcome (list Z) :=
  if c <? 32 then print_string c 10
  else
    olet h := print_string c 16 in
    Ok ([49; 54; 114] ++ (if c <=? 255 then [48] else []) ++ (if c <=? 4095 then [48] else []) ++ h).

(** Character>>storeOn: and printOn:; kernel/Character.st:454-480 *)
Definition store_char (c : char_obj) : outcome (list Z) :=
  if (32 <=? snd c) && (snd c <=? 126) then Ok [36; snd c]
  else
    olet p := print_code_point (snd c) in
    Ok (36 :: 60 :: p ++ [62]).

(** the characters that can be made: Character value: 0 to 255, and
    UnicodeCharacters from 128 on; libgst/prims.def:3529-3573,
    libgst/dict.inl:586-603 *)
Definition a_char (c : char_obj) : Prop :=
  if fst c then 128 <= snd c <= 1114111 else 0 <= snd c <= 255.
