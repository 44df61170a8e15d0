(** Parsing: C111, C112, C113. *)
From Verif Require Import Base ParseTree Parse ParseSpec ParseTop.
Open Scope string_scope.
Open Scope list_scope.

(** at: i put: x [ <category: 'x'> | t | <foo>
      t := a := self foo + -3 at: i > 2; at: 4.
      ^ [:z | z bar: (t at: 2) ] ] *)
Definition sample_text : tokens :=
  [Keyword "at:"; Ident "i"; Keyword "put:"; Ident "x"; LBrack;
   Lt; Keyword "category:"; Const 1; Gt; Bar; Ident "t"; Bar; Lt; Ident "foo"; Gt;
   Ident "t"; Assign; Ident "a"; Assign; Ident "self"; Ident "foo"; Binop "+"; Minus; Int 3;
     Keyword "at:"; Ident "i"; Gt; Int 2; Semi; Keyword "at:"; Int 4; Dot;
   Caret; LBrack; Colon; Ident "z"; Bar; Ident "z"; Keyword "bar:";
     LParen; Ident "t"; Keyword "at:"; Int 2; RParen; RBrack; RBrack].
Definition sample_method : method :=
  Method (PKeyword [("at:", "i"); ("put:", "x")])
    [MKeyword [("category:", ELit (LConst 1))]; MUnary "foo"] ["t"]
    [SExpr (EAssign [["t"]; ["a"]]
       (ECascade (ESend (ESend (EVar ["self"]) (MUnary "foo")) (MBinary "+" (ELit (LInt (-3)))))
          (MKeyword [("at:", ESend (EVar ["i"]) (MBinary ">" (ELit (LInt 2))))])
          [MKeyword [("at:", ELit (LInt 4))]]));
     SReturn (EBlock ["z"] []
       [SExpr (ESend (EVar ["z"]) (MKeyword [("bar:", ESend (EVar ["t"]) (MKeyword [("at:", ELit (LInt 2))]))]))])].

(** C111, as it should be: the parser gives every text of the language its tree.
    False: [#($< 5)] is refused. *)
Theorem C111_every_text_parsed_refuted : exists e ts,
  Expr e ts /\ ends_expression [] /\ expression_of ts = Err.
Proof.
  exists (ELit (LArray [LChar 60; LInt 5])), [Hash; LParen; Char 60; Int 5; RParen].
  split; [|split; [exact Logic.I|vm_compute; reflexivity]].
  exact less_five_text.
Qed.
Print Assumptions C111_every_text_parsed_refuted.

(** C111, what holds: it does unless the character < is followed by an integer.
    Missing: those texts. *)
Theorem C111_every_expression_parsed_partial : forall e ts rest,
  Expr e ts -> no_loose_less (ts ++ rest) -> ends_expression rest ->
  expression_of (ts ++ rest) = Ok (Some e, rest).
Proof. exact expression_complete. Qed.
Print Assumptions C111_every_expression_parsed_partial.

Theorem C111_every_method_parsed_partial : forall brackets m ts rest,
  MethodText brackets m ts -> no_loose_less (ts ++ rest) ->
  method_of brackets (ts ++ rest) = Ok (m, rest).
Proof. exact method_complete. Qed.
Print Assumptions C111_every_method_parsed_partial.

(** So no such text has two trees. *)
Theorem C111_unambiguous_partial : forall e1 e2 ts,
  Expr e1 ts -> Expr e2 ts -> no_loose_less ts -> e1 = e2.
Proof. exact unambiguous. Qed.
Print Assumptions C111_unambiguous_partial.

Theorem C111_methods_unambiguous_partial : forall brackets m1 m2 ts,
  MethodText brackets m1 ts -> MethodText brackets m2 ts -> no_loose_less ts -> m1 = m2.
Proof. exact methods_unambiguous. Qed.
Print Assumptions C111_methods_unambiguous_partial.

Example C111_sample : MethodText true sample_method sample_text /\ no_loose_less (sample_text ++ [Ident "next"]).
Proof.
  split.
  - destruct (method_sound true sample_text sample_method []) as (us & E & D).
    + apply plain_tidy. vm_compute. reflexivity.
    + vm_compute. reflexivity.
    + rewrite app_nil_r in E. rewrite E. exact D.
  - apply plain_less. vm_compute. reflexivity.
Qed.

(** Binary messages go left to right and before keyword messages, and a cascade
    goes to the receiver of the last message sent. *)
Example C111_precedence : forall a b c,
  expression_of [Ident a; Binop "+"; Ident b; Binop "*"; Ident c; Keyword "k:"; Ident a; Ident "u"; Semi; Ident "v"]
  = Ok (Some (ECascade (ESend (ESend (EVar [a]) (MBinary "+" (EVar [b]))) (MBinary "*" (EVar [c])))
               (MKeyword [("k:", ESend (EVar [a]) (MUnary "u"))]) [MUnary "v"]), []).
Proof. reflexivity. Qed.

(** C112, as it should be: what is parsed is a text of the language with its
    tree.  False: a literal array without its ')' is dropped in silence, so that
    [foo [ a bar. #(1 ]] is taken for [foo [ a bar ]]. *)
Theorem C112_only_texts_parsed_refuted : exists ts m, method_of true ts = Ok (m, []) /\
  forall m', ~ MethodText true m' ts.
Proof.
  exists [Ident "foo"; LBrack; Ident "a"; Ident "bar"; Dot; Hash; LParen; Int 1; RBrack],
    (Method (PUnary "foo") [] [] [SExpr (ESend (EVar ["a"]) (MUnary "bar"))]).
  split; [vm_compute; reflexivity|]. exact not_a_method.
Qed.
Print Assumptions C112_only_texts_parsed_refuted.

(** Nor does the operator after the arguments of a block have to be ||:
    [[:a ||+ b | b]] is taken for [[:a || b | b]]. *)
Theorem C112_bars_refuted : exists ts e, expression_of ts = Ok (Some e, []) /\
  forall e', ~ Expr e' ts.
Proof.
  exists [LBrack; Colon; Ident "a"; Binop "||+"; Ident "b"; Bar; Ident "b"; RBrack],
    (EBlock ["a"] ["b"] [SExpr (EVar ["b"])]).
  split; [vm_compute; reflexivity|]. exact not_a_block.
Qed.
Print Assumptions C112_bars_refuted.

(** C112, what holds: in texts without those two things only what the grammar
    allows is parsed, and to the tree it says.  Missing: the other texts. *)
Theorem C112_expressions_partial : forall ts e rest, tidy ts ->
  expression_of ts = Ok (Some e, rest) -> exists us, ts = us ++ rest /\ Expr e us.
Proof. exact expression_sound_top. Qed.
Print Assumptions C112_expressions_partial.

Theorem C112_methods_partial : forall brackets ts m rest, tidy ts ->
  method_of brackets ts = Ok (m, rest) -> exists us, ts = us ++ rest /\ MethodText brackets m us.
Proof. exact method_sound. Qed.
Print Assumptions C112_methods_partial.

Example C112_sample : tidy sample_text /\ method_of true sample_text = Ok (sample_method, []).
Proof. split; [apply plain_tidy; vm_compute; reflexivity|vm_compute; reflexivity]. Qed.

(** A text with a literal array is tidy too if the array is whole. *)
Example C112_array : let ts := [Hash; LParen; Int 1; Const 2; RParen; Ident "size"] in
  tidy ts /\ expression_of ts = Ok (Some (ESend (ELit (LArray [LInt 1; LConst 2])) (MUnary "size")), []).
Proof. split; [exact whole_array_tidy|vm_compute; reflexivity]. Qed.

(** C113: whatever the text, the parser ends, with a tree or with an error it
    reports; it never runs into an assertion or out of the text, and what is left
    is no longer than the text. *)
Theorem C113_expressions_end : forall ts,
  (exists o rest, expression_of ts = Ok (o, rest) /\ (List.length rest <= List.length ts)%nat) \/
  expression_of ts = Err.
Proof. exact expression_answers. Qed.
Print Assumptions C113_expressions_end.

Theorem C113_methods_end : forall brackets ts,
  (exists m rest, method_of brackets ts = Ok (m, rest) /\ (List.length rest <= List.length ts)%nat) \/
  method_of brackets ts = Err.
Proof. exact method_answers. Qed.
Print Assumptions C113_methods_end.

(** The bound on the depth of calls does not show: from it on, deeper calls change
    nothing. *)
Theorem C113_depth : forall brackets ts n, (fuel_for ts <= n)%nat ->
  p_expression (at_fuel n) any ts = expression_of ts /\ parse_method n brackets ts = method_of brackets ts.
Proof. exact depth_does_not_show. Qed.
Print Assumptions C113_depth.

Example C113_sample :
  expression_of [LParen; Ident "a"; Keyword "k:"; RParen] = Err /\
  expression_of [RParen] = Ok (None, [RParen]) /\
  method_of true [Ident "foo"; LBrack; LBrack; LBrace] = Err.
Proof. repeat split; vm_compute; reflexivity. Qed.
