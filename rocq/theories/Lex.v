(** Literals in source code: the lexer of libgst/lex.c and parse_literal of
    libgst/gst-parse.c, for integers, strings, symbols and characters.

    The input is the list of the characters still to be read, so that
    _gst_next_char takes the head and _gst_unread_char puts it back
    (libgst/input.c:749-779).  An error report (_gst_had_error) is [Err].
    Comments, floating point and ScaledDecimal literals are not modelled. *)
From Verif Require Import Base Digits IntRep SmallInt.
Local Open Scope Z_scope.

(** ** numbers *)

(** is_base_digit; libgst/lex.c:1065-1078 *)
Definition is_base_digit (c base : Z) : bool :=
  if (c <? 48) || ((57 <? c) && (c <? 65)) || (90 <? c) then false
  else (if 65 <=? c then c - 65 + 10 else c - 48) <? base.

(** digit_to_int, for a character that is_base_digit accepts;
    libgst/lex.c:1038-1063 *)
Definition digit_to_int (c : Z) : Z := if 65 <=? c then c - 65 + 10 else c - 48.

(** the bound that makes an integer large; libgst/lex.c:962-967: unsigned
    64-bit arithmetic *)
Definition large_bound (neg : bool) (base value : Z) : Z :=
  uwrap64 (uwrap64 (if neg then min_st_int else max_st_int) - value) / base.

(** what scan_digits has found: the number modulo 2^64, whether it is a large
    integer, the digits put on the obstack, whether there was any;
    libgst/lex.c:944-989 *)
Record scanned := mkscan {
  sc_int : Z;
  sc_large : bool;
  sc_digits : list Z;
  sc_one : bool
}.

(** the loop of scan_digits; libgst/lex.c:952-988.  Underscores are skipped in
    front of and after each digit *)
Fixpoint scan_loop (neg : bool) (base : Z) (s : list Z) (r : scanned) : scanned * list Z :=
  match s with
  | [] => (r, [])
  | c :: t =>
    if c =? 95 then scan_loop neg base t r
    else if is_base_digit c base then
      let value := digit_to_int c in
      scan_loop neg base t
        (mkscan (uwrap64 (uwrap64 (sc_int r * base) + value))
                (sc_large r || (large_bound neg base value <? sc_int r))
                (sc_digits r ++ [value]) true)
    else (r, s)
  end.

(** scan_digits; libgst/lex.c:944-989 *)
Definition scan_digits (neg large : bool) (base : Z) (s : list Z) : outcome (scanned * list Z) :=
  let '(r, s) := scan_loop neg base s (mkscan 0 large [] false) in
  if sc_one r then Ok (r, s) else Err.

(** one pass of the loop of scan_large_integer over the bytes of the result;
    the last carry is dropped; libgst/lex.c:1119-1130 *)
Fixpoint mul_add (base carry : Z) (l : list Z) : list Z :=
  match l with
  | [] => []
  | x :: l => let total := x * base + carry in
    total mod 256 :: mul_add base (total / 256) l
  end.

(** adding one, up to the first byte that does not become 0; running past the
    end is undefined; libgst/lex.c:1139, 1379 *)
Fixpoint increment (l : list Z) : outcome (list Z) :=
  match l with
  | [] => UB
  | x :: l =>
    if (x + 1) mod 256 =? 0 then olet l := increment l in Ok (0 :: l)
    else Ok ((x + 1) mod 256 :: l)
  end.

(** the length without the trailing bytes equal to [x]; libgst/lex.c:1144,1153 *)
Fixpoint strip (x : Z) (l : list Z) : list Z :=
  match l with
  | [] => []
  | y :: l =>
    match strip x l with
    | [] => if y =? x then [] else [y]
    | k => y :: k
    end
  end.

(** one more byte if the sign bit of the last one is wrong; looking before the
    first byte or taking one past the end is undefined;
    libgst/lex.c:1145-1146,1154-1155 *)
Definition fix_sign (wrong : Z -> bool) (k l : list Z) : outcome (list Z) :=
  match k with
  | [] => UB
  | _ =>
    if wrong (last k 0) then
      if Nat.ltb (length k) (length l) then Ok (firstn (S (length k)) l) else UB
    else Ok k
  end.

(** two's complement and removal of superfluous bytes; libgst/lex.c:1134-1147,
    1375-1388 *)
Definition negate_bytes (l : list Z) : outcome (list Z) :=
  olet l := increment (map (fun x => Z.lxor x 255) l) in
  fix_sign (fun x => x <? 128) (strip 255 l) l.

(** scan_large_integer; libgst/lex.c:1087-1161 *)
Definition scan_large_integer (neg : bool) (base : Z) (digits : list Z) : outcome stint :=
  let l := fold_left (fun l d => mul_add base d l) digits (repeat 0 (length digits)) in
  if neg then olet l := negate_bytes l in Ok (Large true l)
  else olet l := fix_sign (fun x => 127 <? x) (strip 0 l) l in Ok (Large false l).

(** the tokens scan_number answers, with their value: INTEGER_LITERAL,
    LARGE_INTEGER_LITERAL; the other kinds of number are not modelled;
    libgst/lex.c:920-939 *)
Inductive numtok :=
  | TInt (ival : Z)
  | TLarge (o : stint)
  | TOther.

(** the end of scan_number; libgst/lex.c:794-939: a full stop not followed by
    a digit ends a statement *)
Definition finish_number (neg : bool) (base : Z) (r : scanned) (s : list Z) :
    outcome (numtok * list Z) :=
  let done :=
    if sc_large r then olet o := scan_large_integer neg base (sc_digits r) in Ok (TLarge o, s)
    else Ok (TInt (wrap64 (if neg then - sc_int r else sc_int r)), s) in
  match s with
  | c :: t =>
    if (c =? 46) && match t with d :: _ => is_base_digit d base | [] => false end then Ok (TOther, s)
    else if (c =? 115) || (c =? 101) || (c =? 100) || (c =? 113) then Ok (TOther, s)
    else done
  | [] => done
  end.

(** scan_number; libgst/lex.c:749-939 *)
Definition scan_number (s : list Z) : outcome (numtok * list Z) :=
  olet (r, s) := scan_digits false false 10 s in
  match s with
  | c :: t =>
    if c =? 114 then
      if (36 <? sc_int r) || sc_large r then Err
      else
        let base := sc_int r in
        let '(neg, t) := match t with
                         | d :: u => if d =? 45 then (true, u) else (false, t)
                         | [] => (false, t)
                         end in
        olet (r, s) := scan_digits neg false base t in
        finish_number neg base r s
    else finish_number false 10 r s
  | [] => finish_number false 10 r s
  end.

(** is_digit; libgst/lex.c:1081-1085, the table: libgst/lex.c:282-291 *)
Definition is_dec (c : Z) : bool := (48 <=? c) && (c <=? 57).

(** _gst_negate_yylval; libgst/lex.c:1334-1399; the assertion on the new size is
    [Abort] *)
Definition negate_token (t : numtok) : outcome numtok :=
  match t with
  | TInt i => if i <? 0 then Err else Ok (TInt (wrap64 (- i)))
  | TLarge (Large _ l) =>
    if 128 <=? last l 0 then Err
    else
      olet k := negate_bytes l in
      if Nat.leb (length k) (length l) then Ok (TLarge (Large true k)) else Abort
  | TLarge (Small _) => UB
  | TOther => Ok TOther
  end.

(** the object a number token compiles to; libgst/gst-parse.c:1790-1796,
    libgst/comp.c:2187-2188,2208-2213; None: not modelled *)
Definition token_object (t : numtok) : option stint :=
  match t with
  | TInt i => Some (Small (to_int (from_int i)))
  | TLarge o => Some o
  | TOther => None
  end.

(** parse_literal on a number, possibly with a minus sign in front;
    libgst/gst-parse.c:1733-1796.  The answer is the object and what follows *)
Definition int_literal (s : list Z) : outcome (option stint * list Z) :=
  match s with
  | c :: t =>
    if c =? 45 then
      match t with
      | d :: _ =>
        if is_dec d then
          olet (k, s) := scan_number t in
          olet k := negate_token k in
          Ok (token_object k, s)
        else Err
      | [] => Err
      end
    else if is_dec c then
      olet (k, s) := scan_number s in Ok (token_object k, s)
    else Err
  | [] => Err
  end.
