(** The recursive-descent parser of methods and expressions
    (libgst/gst-parse.c). Definitions only.

    Modelled: parse_method, parse_message_pattern, parse_attributes,
    parse_temporaries, parse_statements, parse_expression, parse_primary,
    parse_literal, parse_block, parse_message_expression, parse_cascaded_messages
    and what they call.  The lookahead buffer (gst-parse.c:191-290) always holds
    exactly one token in these functions, so the state of the parser is the list
    of tokens still to come, the empty list being EOF.  An error (expected,
    recover_error: longjmp, gst-parse.c:487-560) is [Err], a failed assert
    [Abort]; answering NULL is [Ok (None, _)], which is not an error in the C
    code.  Not modelled: the actions of the parser (compiling, evaluating
    attributes and compile-time constants), warnings, locations, and the
    definitions of classes and namespaces (gst-parse.c:606-1300). *)
From Verif Require Import Base ParseTree.

Notation tokens := (list token).
Notation answer A := (outcome (A * tokens)).

(** enum expr_kinds (gst-parse.c:58-67): one field per bit. *)
Record kind := Kind {
  k_assign : bool; k_greater : bool; k_binop : bool; k_keyword : bool; k_cascade : bool }.
Definition any := Kind true true true true true.
Definition cascaded := Kind false true true true false.
Definition only_binop := Kind false false true false false.

(** [kind & ~EXPR_ASSIGNMENT] and so on (gst-parse.c:1619, 2098, 2207, 2241). *)
Definition no_assign k := Kind false (k_greater k) (k_binop k) (k_keyword k) (k_cascade k).
Definition no_cascade k := Kind (k_assign k) (k_greater k) (k_binop k) (k_keyword k) false.
Definition no_keyword k := Kind (k_assign k) (k_greater k) (k_binop k) false (k_cascade k).
Definition no_binop k := Kind (k_assign k) (k_greater k) false (k_keyword k) (k_cascade k).

(** parse_variable_primary (gst-parse.c:1693-1719). *)
Fixpoint scoped (ts : tokens) : answer (list string) :=
  match ts with
  | Scope :: ts1 =>
      match ts1 with
      | Ident s :: ts2 => olet (p, r) := scoped ts2 in Ok (s :: p, r)
      | _ => Err
      end
  | _ => Ok ([], ts)
  end.
Definition variable_primary (ts : tokens) : answer (list string) :=
  match ts with
  | Ident s :: ts1 => olet (p, r) := scoped ts1 in Ok (s :: p, r)
  | _ => Abort
  end.

(** parse_temporaries (gst-parse.c:1513-1531). *)
Fixpoint temps_until (acc : list string) (ts : tokens) : answer (list string) :=
  match ts with
  | Bar :: r => Ok (acc, r)
  | Ident s :: r => temps_until (acc ++ [s]) r
  | _ => Err
  end.
Definition parse_temporaries (implied_pipe : bool) (ts : tokens) : answer (list string) :=
  if implied_pipe then temps_until [] ts
  else match ts with
       | Bar :: r => temps_until [] r
       | _ => Ok ([], ts)
       end.

(** parse_block_variables (gst-parse.c:2060-2070). *)
Fixpoint block_variables (acc : list string) (ts : tokens) : answer (list string) :=
  match ts with
  | Colon :: ts1 =>
      match ts1 with
      | Ident s :: r => block_variables (acc ++ [s]) r
      | _ => Err
      end
  | _ => Ok (acc, ts)
  end.

(** parse_byte_array_literal (gst-parse.c:1921-1945), after the '['. *)
Fixpoint byte_array (acc : list Z) (ts : tokens) : answer (list Z) :=
  match ts with
  | RBrack :: r => Ok (acc, r)
  | Int z :: r => if (z <? 0) || (255 <? z) then Err else byte_array (acc ++ [z]) r
  | _ => Err
  end.

(** The test for a BINOP that begins with two bars (gst-parse.c:2036-2037). *)
Definition two_bars (s : string) : bool := prefix "||" s.

(** lex_skip_mandatory (gst-parse.c:262-269). *)
Definition skip (is : token -> bool) (ts : tokens) : outcome tokens :=
  match ts with
  | t' :: r => if is t' then Ok r else Err
  | [] => Err
  end.
Definition skip_rparen := skip (fun t => match t with RParen => true | _ => false end).
Definition skip_rbrack := skip (fun t => match t with RBrack => true | _ => false end).
Definition skip_rbrace := skip (fun t => match t with RBrace => true | _ => false end).
Definition skip_lbrack := skip (fun t => match t with LBrack => true | _ => false end).
Definition skip_lparen := skip (fun t => match t with LParen => true | _ => false end).
Definition skip_gt := skip (fun t => match t with Gt => true | _ => false end).
Definition skip_bang := skip (fun t => match t with Bang => true | _ => false end).

(** The functions that call each other.  Model device: the functions with one
    unit of fuel more are made from those with one unit less ([at_fuel]). *)
Record parsers := Parsers {
  p_expression : kind -> tokens -> answer (option expr);
  p_assigns : kind -> list (list string) -> tokens ->
              answer (list (list string) * option expr);
  p_message : kind -> expr -> bool -> tokens -> answer expr;
  p_cascade : list msg -> tokens -> answer (list msg);
  p_keywords : kind -> list (string * expr) -> tokens -> answer (list (string * expr));
  p_primary : tokens -> answer (option expr);
  p_literal : bool -> tokens -> answer (option lit);
  p_array : list lit -> tokens -> answer (option lit);
  p_statements : bool -> list stmt -> tokens -> answer (list stmt) }.

Section Step.
Variable P : parsers.

(** parse_expression (gst-parse.c:1584-1625), after the loop over assignments. *)
Definition s_expression (k : kind) (ts : tokens) : answer (option expr) :=
  olet (assigns, node, ts1) := p_assigns P k [] ts in
  match node with
  | None => match assigns with [] => Ok (None, ts1) | _ => Err end
  | Some e =>
      olet (e1, ts2) := p_message P (no_assign k) e false ts1 in
      Ok (Some (match assigns with [] => e1 | _ => EAssign assigns e1 end), ts2)
  end.

(** The loop over assignments (gst-parse.c:1588-1610). *)
Definition s_assigns (k : kind) (acc : list (list string)) (ts : tokens) :
  answer (list (list string) * option expr) :=
  match ts with
  | Ident _ :: _ =>
      olet (p, ts1) := variable_primary ts in
      match ts1 with
      | Assign :: ts2 =>
          if k_assign k then p_assigns P k (acc ++ [p]) ts2
          else Ok (acc, Some (EVar p), ts1)
      | _ => Ok (acc, Some (EVar p), ts1)
      end
  | _ => olet (e, ts1) := p_primary P ts in Ok (acc, e, ts1)
  end.

(** parse_required_expression (gst-parse.c:1627-1637). *)
Definition s_required (ts : tokens) : answer expr :=
  olet (e, ts1) := p_expression P any ts in
  match e with Some e => Ok (e, ts1) | None => Err end.

(** parse_block (gst-parse.c:2017-2054), after the '['. *)
Definition s_block_body (vars : list string) (implied : bool) (ts : tokens) :
  answer (option expr) :=
  olet (temps, ts1) := parse_temporaries implied ts in
  olet (body, ts2) := p_statements P true [] ts1 in
  olet ts3 := skip_rbrack ts2 in
  Ok (Some (EBlock vars temps body), ts3).
Definition s_block (ts : tokens) : answer (option expr) :=
  match ts with
  | Colon :: _ =>
      olet (vars, ts1) := block_variables [] ts in
      match ts1 with
      | RBrack :: _ => s_block_body vars false ts1
      | Bar :: r => s_block_body vars false r
      | Binop s :: r => if two_bars s then s_block_body vars true r else Err
      | _ => Err
      end
  | _ => s_block_body [] false ts
  end.

(** parse_primary (gst-parse.c:1645-1688). *)
Definition s_primary (ts : tokens) : answer (option expr) :=
  match ts with
  | Ident _ :: _ => olet (p, ts1) := variable_primary ts in Ok (Some (EVar p), ts1)
  | Const _ :: _ | Int _ :: _ | Num _ :: _ | Char _ :: _ | Hash :: _ | Minus :: _ =>
      olet (l, ts1) := p_literal P false ts in Ok (option_map ELit l, ts1)
  | LBrack :: r => s_block r
  | LBrace :: r =>
      olet (body, ts1) := p_statements P false [] r in
      olet ts2 := skip_rbrace ts1 in
      Ok (Some (EBrace body), ts2)
  | LParen :: r =>
      olet (e, ts1) := s_required r in
      olet ts2 := skip_rparen ts1 in
      Ok (Some e, ts2)
  | _ => Ok (None, ts)
  end.

(** parse_compile_time_constant (gst-parse.c:1948-1977), after the second '#'.
    Without statements the constant is nil (gst-parse.c:1963). *)
Definition s_doit (ts : tokens) : answer (option lit) :=
  olet ts1 := skip_lparen ts in
  olet (temps, ts2) := parse_temporaries false ts1 in
  olet (body, ts3) := p_statements P true [] ts2 in
  olet ts4 := skip_rparen ts3 in
  Ok (Some (match body with [] => LNil | _ => LDoit temps body end), ts4).

(** parse_literal (gst-parse.c:1733-1860), with parse_builtin_identifier
    (gst-parse.c:1888-1917) and parse_binding_constant (gst-parse.c:1980-1993).
    '-' with a literal that is not negative goes round once more with the value
    negated. *)
Definition s_literal (array : bool) (ts : tokens) : answer (option lit) :=
  match ts with
  | Minus :: Int z :: r => if z <? 0 then Err else Ok (Some (LInt (- z)), r)
  | Minus :: Num z :: r => if z <? 0 then Err else Ok (Some (LNum (- z)), r)
  | Minus :: _ => Err
  | LParen :: r => if array then p_array P [] r else Abort
  | LBrack :: r =>
      if array then olet (bs, ts1) := byte_array [] r in Ok (Some (LBytes bs), ts1)
      else Abort
  | Ident s :: r =>
      if String.eqb s "true" then Ok (Some LTrue, r)
      else if String.eqb s "false" then Ok (Some LFalse, r)
      else if String.eqb s "nil" then Ok (Some LNil, r)
      else Err
  | Const c :: r => Ok (Some (LConst c), r)
  | Int z :: r => Ok (Some (LInt z), r)
  | Num z :: r => Ok (Some (LNum z), r)
  | Char c :: r =>
      match r with
      | Int z :: r1 =>
          if (c =? 60) && (0 <=? z) then
            olet r2 := skip_gt r1 in
            if 1114111 <? z then Err else Ok (Some (LChar z), r2)
          else Ok (Some (LChar c), r)
      | _ => Ok (Some (LChar c), r)
      end
  | Hash :: LParen :: r => p_array P [] r
  | Hash :: LBrack :: r =>
      olet (bs, ts1) := byte_array [] r in Ok (Some (LBytes bs), ts1)
  | Hash :: Hash :: r => s_doit r
  | Hash :: LBrace :: r =>
      match r with
      | Ident _ :: _ =>
          olet (p, ts1) := variable_primary r in
          olet ts2 := skip_rbrace ts1 in
          Ok (Some (LBinding p), ts2)
      | _ => Err
      end
  | Hash :: _ => Err
  | _ => Ok (None, ts)
  end.

(** parse_array_literal (gst-parse.c:1867-1883), after the '('. *)
Definition s_array (acc : list lit) (ts : tokens) : answer (option lit) :=
  match ts with
  | RParen :: r => Ok (Some (LArray acc), r)
  | [] => Err
  | _ =>
      olet (l, ts1) := p_literal P true ts in
      match l with
      | None => Ok (None, ts1)
      | Some l => p_array P (acc ++ [l]) ts1
      end
  end.

(** The selector of a binary message. *)
Definition binary_token (t : token) : option string :=
  match t with
  | Binop s => Some s
  | Lt => Some "<"
  | Gt => Some ">"
  | Minus => Some "-"
  | Bar => Some "|"
  | _ => None
  end.

(** parse_binary_expression (gst-parse.c:2194-2213), after the selector. *)
Definition s_binary (k : kind) (ts : tokens) : answer expr :=
  olet (e, ts1) := p_expression P (no_binop (no_keyword k)) ts in
  match e with Some e => Ok (e, ts1) | None => Err end.

(** parse_keyword_list (gst-parse.c:2225-2255). *)
Definition s_keywords (k : kind) (acc : list (string * expr)) (ts : tokens) :
  answer (list (string * expr)) :=
  match ts with
  | Keyword s :: r =>
      olet (e, ts1) := p_expression P (no_keyword k) r in
      match e with
      | None => Err
      | Some e =>
          match ts1 with
          | Keyword _ :: _ => p_keywords P k (acc ++ [(s, e)]) ts1
          | _ => Ok (acc ++ [(s, e)], ts1)
          end
      end
  | _ => Abort
  end.

(** parse_message_expression (gst-parse.c:2087-2132); [sent] is [n != 0]. *)
Definition s_message (k : kind) (node : expr) (sent : bool) (ts : tokens) : answer expr :=
  match ts with
  | Ident s :: r => p_message P k (ESend node (MUnary s)) true r
  | Gt :: r =>
      if negb (k_greater k) then Ok (node, ts)
      else if negb (k_binop k) then Ok (node, ts)
      else olet (a, ts1) := s_binary (no_cascade k) r in
           p_message P k (ESend node (MBinary ">" a)) true ts1
  | (Binop _ | Lt | Minus | Bar) as t :: r =>
      if negb (k_binop k) then Ok (node, ts)
      else olet (a, ts1) := s_binary (no_cascade k) r in
           p_message P k
             (ESend node (MBinary (match binary_token t with Some s => s | None => "" end) a))
             true ts1
  | Keyword _ :: _ =>
      if negb (k_keyword k) then Ok (node, ts)
      else olet (l, ts1) := p_keywords P (no_cascade k) [] ts in
           p_message P k (ESend node (MKeyword l)) true ts1
  | Semi :: _ =>
      if negb sent || negb (k_cascade k) then Ok (node, ts)
      else olet (ms, ts1) := p_cascade P [] ts in
           match node with
           | ESend r m => Ok (ECascade r m ms, ts1)
           | _ => Abort
           end
  | _ => Ok (node, ts)
  end.

(** parse_cascaded_messages (gst-parse.c:2137-2173). *)
Definition s_cascade (acc : list msg) (ts : tokens) : answer (list msg) :=
  match ts with
  | Semi :: ts1 =>
      match ts1 with
      | Ident s :: r => p_cascade P (acc ++ [MUnary s]) r
      | (Binop _ | Lt | Gt | Minus | Bar) as t :: r =>
          olet (a, ts2) := s_binary cascaded r in
          p_cascade P
            (acc ++ [MBinary (match binary_token t with Some s => s | None => "" end) a]) ts2
      | Keyword _ :: _ =>
          olet (l, ts2) := p_keywords P cascaded [] ts1 in
          p_cascade P (acc ++ [MKeyword l]) ts2
      | _ => Err
      end
  | _ => Ok (acc, ts)
  end.

(** parse_statements (gst-parse.c:1541-1578) without a first statement. *)
Definition s_statements (accept_caret : bool) (acc : list stmt) (ts : tokens) :
  answer (list stmt) :=
  match ts, accept_caret with
  | Caret :: r, true =>
      olet (e, ts1) := s_required r in
      match ts1 with
      | Dot :: ts2 => Ok (acc ++ [SReturn e], ts2)
      | _ => Ok (acc ++ [SReturn e], ts1)
      end
  | _, _ =>
      olet (e, ts1) := p_expression P any ts in
      match e with
      | None => Ok (acc, ts1)
      | Some e =>
          match ts1 with
          | Dot :: ts2 => p_statements P accept_caret (acc ++ [SExpr e]) ts2
          | _ => Ok (acc ++ [SExpr e], ts1)
          end
      end
  end.

Definition step : parsers :=
  Parsers s_expression s_assigns s_message s_cascade s_keywords s_primary s_literal s_array
    s_statements.
End Step.

(** The parsing functions with a bound on the depth of calls (not in the code). *)
Fixpoint at_fuel (n : nat) : parsers :=
  match n with
  | O => Parsers (fun _ _ => OutOfFuel) (fun _ _ _ => OutOfFuel) (fun _ _ _ _ => OutOfFuel)
           (fun _ _ => OutOfFuel) (fun _ _ _ => OutOfFuel) (fun _ => OutOfFuel)
           (fun _ _ => OutOfFuel) (fun _ _ => OutOfFuel) (fun _ _ _ => OutOfFuel)
  | S n => step (at_fuel n)
  end.

(** parse_message_pattern (gst-parse.c:1382-1416). *)
Fixpoint keyword_variables (acc : list (string * string)) (ts : tokens) :
  answer (list (string * string)) :=
  match ts with
  | Keyword s :: ts1 =>
      match ts1 with
      | Ident a :: r => keyword_variables (acc ++ [(s, a)]) r
      | _ => Err
      end
  | _ => Ok (acc, ts)
  end.
Definition parse_pattern (ts : tokens) : answer pattern :=
  match ts with
  | Ident s :: r => Ok (PUnary s, r)
  | (Binop _ | Lt | Gt | Minus | Bar) as t :: r =>
      match r with
      | Ident a :: r1 =>
          Ok (PBinary (match binary_token t with Some s => s | None => "" end) a, r1)
      | _ => Err
      end
  | Keyword _ :: _ => olet (l, r) := keyword_variables [] ts in Ok (PKeyword l, r)
  | _ => Err
  end.

(** parse_attribute (gst-parse.c:1470-1503), after the '<', and parse_attributes
    (gst-parse.c:1457-1468). Not modelled: turning the attribute into a Message. *)
Definition parse_attribute (n : nat) (ts : tokens) : answer msg :=
  match ts with
  | Ident s :: r => olet r1 := skip_gt r in Ok (MUnary s, r1)
  | Keyword _ :: _ =>
      olet (l, r) := p_keywords (at_fuel n) only_binop [] ts in
      olet r1 := skip_gt r in Ok (MKeyword l, r1)
  | _ => Err
  end.
Fixpoint parse_attributes (n : nat) (acc : list msg) (ts : tokens) : answer (list msg) :=
  match n with
  | O => OutOfFuel
  | S n =>
      match ts with
      | Lt :: r =>
          olet (m, r1) := parse_attribute n r in parse_attributes n (acc ++ [m]) r1
      | _ => Ok (acc, ts)
      end
  end.

(** parse_method (gst-parse.c:1321-1369): in brackets ([at_end] is ']') or up to a
    bang. *)
Definition parse_method (n : nat) (brackets : bool) (ts : tokens) : answer method :=
  olet (pat, ts1) := parse_pattern ts in
  olet ts2 := (if brackets then skip_lbrack ts1 else Ok ts1) in
  olet (attrs1, ts3) := parse_attributes n [] ts2 in
  olet (temps, ts4) := parse_temporaries false ts3 in
  olet (attrs2, ts5) := parse_attributes n attrs1 ts4 in
  olet (body, ts6) := p_statements (at_fuel n) true [] ts5 in
  olet ts7 := (if brackets then skip_rbrack ts6 else skip_bang ts6) in
  Ok (Method pat attrs2 temps body, ts7).

(** The parser as it is called, with a bound on the depth of calls that is enough
    for the text (not in the code). *)
Definition fuel_for (ts : tokens) : nat := (6 * List.length ts + 6)%nat.
Definition expression_of (ts : tokens) : answer (option expr) :=
  p_expression (at_fuel (fuel_for ts)) any ts.
Definition method_of (brackets : bool) (ts : tokens) : answer method :=
  parse_method (fuel_for ts) brackets ts.
