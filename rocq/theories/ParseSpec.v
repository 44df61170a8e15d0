(** The grammar of methods and expressions, as the manual and every Smalltalk
    textbook give it: unary messages bind tighter than binary ones, binary
    messages tighter than keyword messages; messages of the same kind associate
    to the left; a cascade sends further messages to the receiver of the last
    message; an assignment takes in everything to its right.  Written as
    inference rules, independently of the parser. *)
From Verif Require Import Base ParseTree.

(** A variable, possibly qualified with the names of namespaces. *)
Inductive Path : list string -> list token -> Prop :=
| path_one s : Path [s] [Ident s]
| path_more s p ts : Path p ts -> Path (s :: p) (Ident s :: Scope :: ts).

(** The operators. In an attribute, '>' is not one of them: it ends it. *)
Inductive Operator (gt : bool) : token -> string -> Prop :=
| op_binop s : Operator gt (Binop s) s
| op_lt : Operator gt Lt "<"
| op_minus : Operator gt Minus "-"
| op_bar : Operator gt Bar "|"
| op_gt : gt = true -> Operator gt Gt ">".

(** Declarations of temporaries, and of the arguments of a block. *)
Inductive Temps : list string -> list token -> Prop :=
| temps_none : Temps [] []
| temps_some vs : Temps vs (Bar :: map Ident vs ++ [Bar]).
Definition colons (vs : list string) : list token :=
  flat_map (fun v => [Colon; Ident v]) vs.

(** [Lit a l ts]: [ts] is the literal [l]; [a] tells whether it is an element of
    a literal array, where the '#' of arrays may be left out and true, false and
    nil are literals. *)
Inductive Lit : bool -> lit -> list token -> Prop :=
| lit_int a z : Lit a (LInt z) [Int z]
| lit_minus_int a z : 0 <= z -> Lit a (LInt (- z)) [Minus; Int z]
| lit_num a z : Lit a (LNum z) [Num z]
| lit_minus_num a z : 0 <= z -> Lit a (LNum (- z)) [Minus; Num z]
| lit_const a c : Lit a (LConst c) [Const c]
| lit_char a c : Lit a (LChar c) [Char c]
| lit_code a c : 0 <= c <= 1114111 -> Lit a (LChar c) [Char 60; Int c; Gt]
| lit_true : Lit true LTrue [Ident "true"]
| lit_false : Lit true LFalse [Ident "false"]
| lit_nil : Lit true LNil [Ident "nil"]
| lit_array a ls ts : Elts ls ts -> Lit a (LArray ls) (Hash :: LParen :: ts ++ [RParen])
| lit_bare_array ls ts : Elts ls ts -> Lit true (LArray ls) (LParen :: ts ++ [RParen])
| lit_bytes a bs : Forall (fun b => 0 <= b <= 255) bs ->
    Lit a (LBytes bs) (Hash :: LBrack :: map Int bs ++ [RBrack])
| lit_bare_bytes bs : Forall (fun b => 0 <= b <= 255) bs ->
    Lit true (LBytes bs) (LBrack :: map Int bs ++ [RBrack])
| lit_binding a p ts : Path p ts -> Lit a (LBinding p) (Hash :: LBrace :: ts ++ [RBrace])
| lit_doit a vs ts body us : Temps vs ts -> Statements true body us -> body <> [] ->
    Lit a (LDoit vs body) (Hash :: Hash :: LParen :: ts ++ us ++ [RParen])
| lit_empty_doit a vs ts : Temps vs ts ->
    Lit a LNil (Hash :: Hash :: LParen :: ts ++ [RParen])

(** The elements of a literal array. *)
with Elts : list lit -> list token -> Prop :=
| elts_nil : Elts [] []
| elts_cons l ts ls us : Lit true l ts -> Elts ls us -> Elts (l :: ls) (ts ++ us)

(** What a message can be sent to without parentheses. *)
with Primary : expr -> list token -> Prop :=
| prim_var p ts : Path p ts -> Primary (EVar p) ts
| prim_lit l ts : Lit false l ts -> Primary (ELit l) ts
| prim_paren e ts : Expr e ts -> Primary e (LParen :: ts ++ [RParen])
| prim_brace body ts : Statements false body ts ->
    Primary (EBrace body) (LBrace :: ts ++ [RBrace])
| prim_block temps ts body us : Temps temps ts -> Statements true body us ->
    Primary (EBlock [] temps body) (LBrack :: ts ++ us ++ [RBrack])
| prim_block_empty vars : vars <> [] ->
    Primary (EBlock vars [] []) (LBrack :: colons vars ++ [RBrack])
| prim_block_vars vars temps ts body us : vars <> [] ->
    Temps temps ts -> Statements true body us ->
    Primary (EBlock vars temps body) (LBrack :: colons vars ++ Bar :: ts ++ us ++ [RBrack])
| prim_block_bars vars temps body us : vars <> [] -> Statements true body us ->
    Primary (EBlock vars temps body)
      (LBrack :: colons vars ++ Binop "||" :: map Ident temps ++ Bar :: us ++ [RBrack])

(** Unary, binary and keyword expressions; the flag tells whether there is a
    message (outside parentheses). *)
with Unary : bool -> expr -> list token -> Prop :=
| unary_primary e ts : Primary e ts -> Unary false e ts
| unary_send b e ts s : Unary b e ts -> Unary true (ESend e (MUnary s)) (ts ++ [Ident s])
with Binary : bool -> bool -> expr -> list token -> Prop :=
| binary_unary gt b e ts : Unary b e ts -> Binary gt b e ts
| binary_send gt b e ts t s c a us : Binary gt b e ts -> Operator gt t s -> Unary c a us ->
    Binary gt true (ESend e (MBinary s a)) (ts ++ t :: us)
with Arguments : bool -> list (string * expr) -> list token -> Prop :=
| arguments_one gt s b a us : Binary gt b a us -> Arguments gt [(s, a)] (Keyword s :: us)
| arguments_more gt s b a us l ts : Binary gt b a us -> Arguments gt l ts ->
    Arguments gt ((s, a) :: l) (Keyword s :: us ++ ts)
with Message : bool -> expr -> list token -> Prop :=
| message_binary b e ts : Binary true b e ts -> Message b e ts
| message_keyword b e ts l us : Binary true b e ts -> Arguments true l us ->
    Message true (ESend e (MKeyword l)) (ts ++ us)

(** The further messages of a cascade. *)
with Cascade : list msg -> list token -> Prop :=
| cascade_nil : Cascade [] []
| cascade_unary s ms ts : Cascade ms ts -> Cascade (MUnary s :: ms) (Semi :: Ident s :: ts)
| cascade_binary t s b a us ms ts : Operator true t s -> Unary b a us -> Cascade ms ts ->
    Cascade (MBinary s a :: ms) (Semi :: t :: us ++ ts)
| cascade_keyword l us ms ts : Arguments true l us -> Cascade ms ts ->
    Cascade (MKeyword l :: ms) (Semi :: us ++ ts)

(** Expressions. *)
with Simple : expr -> list token -> Prop :=
| simple_message b e ts : Message b e ts -> Simple e ts
| simple_cascade r m ts ms us : Message true (ESend r m) ts -> Cascade ms us -> ms <> [] ->
    Simple (ECascade r m ms) (ts ++ us)
with Expr : expr -> list token -> Prop :=
| expr_simple e ts : Simple e ts -> Expr e ts
| expr_assign vs us e ts : Targets vs us -> vs <> [] -> Simple e ts ->
    Expr (EAssign vs e) (us ++ ts)
with Targets : list (list string) -> list token -> Prop :=
| targets_nil : Targets [] []
| targets_cons p ts vs us : Path p ts -> Targets vs us ->
    Targets (p :: vs) (ts ++ Assign :: us)

(** Statements, separated by periods; the last may be followed by one. *)
with Statements : bool -> list stmt -> list token -> Prop :=
| statements_nil ret : Statements ret [] []
| statements_one ret e ts : Expr e ts -> Statements ret [SExpr e] ts
| statements_cons ret e ts ss us : Expr e ts -> Statements ret ss us ->
    Statements ret (SExpr e :: ss) (ts ++ Dot :: us)
| statements_return e ts : Expr e ts -> Statements true [SReturn e] (Caret :: ts)
| statements_return_dot e ts : Expr e ts ->
    Statements true [SReturn e] (Caret :: ts ++ [Dot]).

(** Methods. *)
Inductive Pattern : pattern -> list token -> Prop :=
| pattern_unary s : Pattern (PUnary s) [Ident s]
| pattern_binary t s a : Operator true t s -> Pattern (PBinary s a) [t; Ident a]
| pattern_keyword l : l <> [] ->
    Pattern (PKeyword l) (flat_map (fun sa => [Keyword (fst sa); Ident (snd sa)]) l).
Inductive Attributes : list msg -> list token -> Prop :=
| attributes_nil : Attributes [] []
| attributes_unary s ms ts : Attributes ms ts ->
    Attributes (MUnary s :: ms) (Lt :: Ident s :: Gt :: ts)
| attributes_keyword l us ms ts : Arguments false l us -> Attributes ms ts ->
    Attributes (MKeyword l :: ms) (Lt :: us ++ Gt :: ts).
(** The text of a method: in brackets, or ended by a bang. *)
Inductive MethodText : bool -> method -> list token -> Prop :=
| method_text brackets pat ps a1 ts1 vs ts2 a2 ts3 body ts4 :
    Pattern pat ps -> Attributes a1 ts1 -> Temps vs ts2 -> Attributes a2 ts3 ->
    Statements true body ts4 ->
    MethodText brackets (Method pat (a1 ++ a2) vs body)
      (ps ++ (if brackets then [LBrack] else []) ++ ts1 ++ ts2 ++ ts3 ++ ts4 ++
       [if brackets then RBrack else Bang]).

(** The texts in which a '<' character literal is never followed by an integer,
    except as the notation of a character by its code point. *)
Definition no_loose_less (ts : list token) : Prop :=
  forall pre z post, ts = pre ++ Char 60 :: Int z :: post -> 0 <= z ->
    z <= 1114111 /\ exists post', post = Gt :: post'.

(** What may follow an expression: nothing, or something that cannot go on with
    it. *)
Definition ends_expression (rest : list token) : Prop :=
  match rest with
  | [] | (RParen | RBrack | RBrace | Dot | Bang) :: _ => True
  | _ => False
  end.

(** Tokens a literal can start with inside a literal array. *)
Definition starts_element (t : token) : bool :=
  match t with
  | Ident _ | Const _ | Int _ | Num _ | Char _ | Hash | Minus | LBrack | LParen => true
  | _ => false
  end.
(** [Open ts]: after the '(' of a literal array, [ts] runs into something that is
    neither a literal nor the ')' that ends it. *)
Inductive Open : list token -> Prop :=
| open_here ls us t rest : Elts ls us -> starts_element t = false -> t <> RParen ->
    Open (us ++ t :: rest)
| open_nested ls us post : Elts ls us -> Open post -> Open (us ++ Hash :: LParen :: post)
| open_nested_bare ls us post : Elts ls us -> Open post -> Open (us ++ LParen :: post).
Definition broken_array (ts : list token) : Prop :=
  exists pre post, ts = pre ++ Hash :: LParen :: post /\ Open post.
(** A text is tidy if no literal array in it is broken off, and no operator other
    than || starts with two bars. *)
Definition tidy (ts : list token) : Prop :=
  ~ broken_array ts /\
  forall s, In (Binop s) ts -> prefix "||" s = true -> s = "||".
