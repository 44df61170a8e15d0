(** What a method means, said from its source alone: an evaluator over named
    variables.  No bytecodes, indices, literal vectors or stacks.  It uses from
    the model only the syntax of methods, the objects, and the system of which
    the method is part.

    The control structures are those of the kernel's methods: Boolean.st,
    True.st, False.st, BlkClosure.st (whileTrue:, repeat), Number.st:982-1012
    (to:do:, to:by:do:) and Integer.st:58-65 (timesRepeat:).  A control structure
    that is sent to anything else than the booleans and integers it is for is an
    error, and the specification says nothing of what follows. *)
From Coq Require Import ZArith List Bool Ascii String.
From Verif Require Import Base Comp.
Import ListNotations.
Local Open Scope string_scope.
Local Open Scope list_scope.
Local Open Scope Z_scope.

(** variables and their values, the latest declared first *)
Definition env := list (string * value).

Fixpoint lookup (x : string) (v : env) : option value :=
  match v with
  | [] => None
  | (y, a) :: v' => if String.eqb y x then Some a else lookup x v'
  end.

Fixpoint assign (x : string) (a : value) (v : env) : option env :=
  match v with
  | [] => None
  | (y, b) :: v' =>
    if String.eqb y x then Some ((y, a) :: v')
    else match assign x a v' with Some r => Some ((y, b) :: r) | None => None end
  end.

(** an instance variable, by the place of its name *)
Fixpoint place (x : string) (n : nat) (l : list string) : option nat :=
  match l with
  | [] => None
  | y :: l' =>
    match place x (S n) l' with
    | Some i => Some i
    | None => if String.eqb y x then Some n else None
    end
  end.

(** the control structures; a block is given by its statements *)
Inductive form :=
| FWhile (on : value) (cond body : stmts)      (* cond is evaluated while it is on *)
| FRepeat (body : stmts)
| FIf (r : expr) (t f : stmts)
| FAnd (r : expr) (b : stmts)
| FOr (r : expr) (b : stmts)
| FTimes (r : expr) (b : stmts)
| FTo (r limit : expr) (step : Z) (x : string) (b : stmts) (with_by : bool)
| FSend.

Definition form_of (r : expr) (s : string) (args : exprs) : form :=
  match args with
  | ENil =>
    match r with
    | EBlock _ [] [] b =>
      if String.eqb s "whileTrue" then FWhile VTrue b SNil
      else if String.eqb s "whileFalse" then FWhile VFalse b SNil
      else if String.eqb s "repeat" then FRepeat b
      else FSend
    | _ => FSend
    end
  | ECons (EBlock _ [] [] b) ENil =>
    if String.eqb s "ifTrue:" then FIf r b SNil
    else if String.eqb s "ifFalse:" then FIf r SNil b
    else if String.eqb s "and:" then FAnd r b
    else if String.eqb s "or:" then FOr r b
    else if String.eqb s "timesRepeat:" then FTimes r b
    else match r with
         | EBlock _ [] [] c =>
           if String.eqb s "whileTrue:" then FWhile VTrue c b
           else if String.eqb s "whileFalse:" then FWhile VFalse c b
           else FSend
         | _ => FSend
         end
  | ECons (EBlock _ [] [] b1) (ECons (EBlock _ [] [] b2) ENil) =>
    if String.eqb s "ifTrue:ifFalse:" then FIf r b1 b2
    else if String.eqb s "ifFalse:ifTrue:" then FIf r b2 b1
    else FSend
  | ECons l (ECons (EBlock _ [x] [] b) ENil) =>
    if String.eqb s "to:do:" then FTo r l 1 x b false else FSend
  | ECons l (ECons (ELit _ (KInt z)) (ECons (EBlock _ [x] [] b) ENil)) =>
    if String.eqb s "to:by:do:" then FTo r l z x b true else FSend
  | _ => FSend
  end.

(** what comes of an evaluation: a value, or no value that one may rely on (the
    answer of to:by:do:, which ANSI leaves unspecified); an answer of the method;
    nothing, because a message did not come back; an error, after which anything
    may happen; or no end within the given bound *)
Inductive result (W A : Type) :=
| Val (o : A) (v : env) (w : W)
| Answer (a : value) (w : W)
| Gone
| Error
| NoEnd.
Arguments Val {W A}. Arguments Answer {W A}. Arguments Gone {W A}. Arguments Error {W A}.
Arguments NoEnd {W A}.

(** go on with what was evaluated, with a value that is relied upon, or with the
    state alone *)
Definition bind {W A B} (r : result W A) (k : A -> env -> W -> result W B) : result W B :=
  match r with
  | Val a v w => k a v w
  | Answer a w => Answer a w
  | Gone => Gone
  | Error => Error
  | NoEnd => NoEnd
  end.
Definition use {W B} (r : result W (option value)) (k : value -> env -> W -> result W B) :
    result W B :=
  bind r (fun o v w => match o with Some a => k a v w | None => Error end).
Definition next {W A B} (r : result W A) (k : env -> W -> result W B) : result W B :=
  bind r (fun _ v w => k v w).

Section Eval.
  Variable W : Type.
  Variable sys : system W.
  Variable c : ctx.

  (** a variable that can be read *)
  Definition read (x : string) (v : env) (w : W) : option value :=
    if String.eqb x "self" || String.eqb x "super" then Some (receiver sys)
    else if String.eqb x "true" then Some VTrue
    else if String.eqb x "false" then Some VFalse
    else if String.eqb x "nil" then Some VNil
    else if String.eqb x "thisContext" then None
    else match lookup x v with
         | Some a => Some a
         | None => match place x 0 (c_ivars c) with
                   | Some i => Some (inst_get sys w i)
                   | None => if c_global c x then Some (global_get sys w x) else None
                   end
         end.

  Definition write (x : string) (a : value) (v : env) (w : W) : option (env * W) :=
    match assign x a v with
    | Some v' => Some (v', w)
    | None => match place x 0 (c_ivars c) with
              | Some i => Some (v, inst_put sys w i a)
              | None => if c_global c x then Some (v, global_put sys w x a) else None
              end
    end.

  Fixpoint write_all (ts : list (Z * string)) (a : value) (v : env) (w : W) : result W (option value) :=
    match ts with
    | [] => Val (Some a) v w
    | (_, x) :: ts' =>
      match write x a v w with
      | Some (v', w') => write_all ts' a v' w'
      | None => Error
      end
    end.

  Definition literal (k : const) : value :=
    match k with
    | KInt z => VInt z
    | KSym s => object sys (LSym s)
    | KObj n => object sys (LObj n)
    end.

  (** a message: to super if the receiver is written so *)
  Definition message (r : expr) (a : value) (s : string) (args : list value)
      (v : env) (w : W) : result W (option value) :=
    match (if match r with EVar _ x => String.eqb x "super" | _ => false end
           then perform_super sys w a s args else perform sys w a s args) with
    | Some (b, w') => Val (Some b) v w'
    | None => Gone
    end.

  (** expressions; the number bounds the depth of the evaluation *)
  Fixpoint eval (n : nat) (e : expr) (v : env) (w : W) {struct n} : result W (option value) :=
    match n with
    | O => NoEnd
    | S n =>
      match e with
      | EVar _ x => match read x v w with Some a => Val (Some a) v w | None => Error end
      | ELit _ k => Val (Some (literal k)) v w
      | EBlock _ _ _ _ => Error
      | EAssign _ ts e1 => use (eval n e1 v w) (write_all ts)
      | ECascade _ r ms => use (eval n r v w) (fun a v w => cascade n r a ms v w)
      | ESend _ r s args =>
        match form_of r s args with
        | FSend =>
          use (eval n r v w) (fun a v w =>
          bind (eval_args n args v w) (fun l v w => message r a s l v w))
        | FWhile on cond body => while n on cond body v w
        | FRepeat body => repeat_ n body v w
        | FIf r t f =>
          use (eval n r v w) (fun a v w =>
            match a with
            | VTrue => block n t v w
            | VFalse => block n f v w
            | _ => Error
            end)
        | FAnd r b =>
          use (eval n r v w) (fun a v w =>
            match a with
            | VTrue => block n b v w
            | VFalse => Val (Some VFalse) v w
            | _ => Error
            end)
        | FOr r b =>
          use (eval n r v w) (fun a v w =>
            match a with
            | VTrue => Val (Some VTrue) v w
            | VFalse => block n b v w
            | _ => Error
            end)
        | FTimes r b =>
          use (eval n r v w) (fun a v w =>
            match a with
            | VInt k => next (times n k b v w) (fun v w => Val (Some a) v w)
            | _ => Error
            end)
        | FTo r l step x b with_by =>
          use (eval n r v w) (fun a v w =>
          use (eval n l v w) (fun z v w =>
            match a, z with
            | VInt i, VInt k =>
              next (count n i k step x b v w) (fun v w =>
                Val (if with_by then None else Some a) v w)
            | _, _ => Error
            end))
        end
      end
    end
  (** arguments, from left to right *)
  with eval_args (n : nat) (es : exprs) (v : env) (w : W)
      {struct n} : result W (list value) :=
    match n with
    | O => NoEnd
    | S n =>
      match es with
      | ENil => Val [] v w
      | ECons e es' =>
        use (eval n e v w) (fun a v w =>
        bind (eval_args n es' v w) (fun l v w => Val (a :: l) v w))
      end
    end
  (** the messages of a cascade; the value is that of the last *)
  with cascade (n : nat) (r : expr) (a : value) (ms : msgs) (v : env) (w : W)
      {struct n} : result W (option value) :=
    match n with
    | O => NoEnd
    | S n =>
      match ms with
      | MNil => Error
      | MCons _ s args ms' =>
        let m := bind (eval_args n args v w) (fun l v w => message r a s l v w) in
        match ms' with
        | MNil => m
        | _ => next m (fun v w => cascade n r a ms' v w)
        end
      end
    end
  (** the statements of a block; the value is that of the last *)
  with block (n : nat) (ss : stmts) (v : env) (w : W) {struct n} : result W (option value) :=
    match n with
    | O => NoEnd
    | S n =>
      match ss with
      | SNil => Val (Some VNil) v w
      | SReturn e => use (eval n e v w) (fun a _ w => Answer a w)
      | SExpr e SNil => eval n e v w
      | SExpr e ss' => next (eval n e v w) (fun v w => block n ss' v w)
      end
    end
  (** the loops *)
  with while (n : nat) (on : value) (cond body : stmts) (v : env) (w : W)
      {struct n} : result W (option value) :=
    match n with
    | O => NoEnd
    | S n =>
      use (block n cond v w) (fun a v w =>
        match a with
        | VTrue | VFalse =>
          if match a, on with VTrue, VTrue | VFalse, VFalse => true | _, _ => false end
          then next (block n body v w) (fun v w => while n on cond body v w)
          else Val (Some VNil) v w
        | _ => Error
        end)
    end
  with repeat_ (n : nat) (body : stmts) (v : env) (w : W) {struct n} : result W (option value) :=
    match n with
    | O => NoEnd
    | S n => next (block n body v w) (fun v w => repeat_ n body v w)
    end
  with times (n : nat) (k : Z) (body : stmts) (v : env) (w : W) {struct n} : result W (option value) :=
    match n with
    | O => NoEnd
    | S n =>
      if 1 <=? k
      then next (block n body v w) (fun v w => times n (k - 1) body v w)
      else Val (Some VNil) v w
    end
  with count (n : nat) (i k step : Z) (x : string) (body : stmts) (v : env) (w : W)
      {struct n} : result W (option value) :=
    match n with
    | O => NoEnd
    | S n =>
      if (if 0 <? step then i <=? k else k <=? i)
      then next (block n body ((x, VInt i) :: v) w)
             (fun v w => count n (i + step) k step x body (tl v) w)
      else Val (Some VNil) v w
    end.

  (** the statements of a method: after the last, it answers self or, if they are
      immediate statements, the value of the last, nil if there is none *)
  Fixpoint body (n : nat) (last : bool) (ss : stmts) (v : env) (w : W) : result W (option value) :=
    match ss with
    | SNil => Answer (if last then VNil else receiver sys) w
    | SReturn e => use (eval n e v w) (fun a _ w => Answer a w)
    | SExpr e SNil =>
      if last then use (eval n e v w) (fun a _ w => Answer a w)
      else next (eval n e v w) (fun _ w => Answer (receiver sys) w)
    | SExpr e ss' => next (eval n e v w) (fun v w => body n last ss' v w)
    end.

  (** a method, given its arguments *)
  Definition means (n : nat) (last : bool) (m : meth) (args : list value) (w : W) : result W (option value) :=
    if Nat.eqb (List.length args) (List.length (m_params m))
    then body n last (m_body m)
           (rev (combine (m_params m) args ++ map (fun x => (x, VNil)) (m_temps m))) w
    else Error.
End Eval.
Arguments read {W}. Arguments write {W}. Arguments write_all {W}. Arguments literal {W}.
Arguments message {W}. Arguments eval {W}. Arguments eval_args {W}.
Arguments cascade {W}. Arguments block {W}. Arguments while {W}. Arguments repeat_ {W}.
Arguments times {W}. Arguments count {W}. Arguments body {W}. Arguments means {W}.

(** a system in which integers compare, add and subtract as they should, and a
    global variable that was assigned has the value it was given *)
Record sound {W} (sys : system W) : Prop := {
  sound_ge : forall w a b, perform sys w (VInt a) ">=" [VInt b]
               = Some (if b <=? a then VTrue else VFalse, w);
  sound_le : forall w a b, perform sys w (VInt a) "<=" [VInt b]
               = Some (if a <=? b then VTrue else VFalse, w);
  sound_plus : forall w a b, perform sys w (VInt a) "+" [VInt b] = Some (VInt (a + b), w);
  sound_minus : forall w a b, perform sys w (VInt a) "-" [VInt b] = Some (VInt (a - b), w);
  sound_int : forall z, object sys (LInt z) = VInt z;
  sound_global : forall w g v, global_get sys (global_put sys w g v) g = v
}.

(** the arguments that the selector asks for: one for each colon, one for a
    selector that does not start with a letter *)
Definition is_letter (a : Ascii.ascii) : bool :=
  let n := Ascii.nat_of_ascii a in
  (Nat.leb 65 n && Nat.leb n 90) || (Nat.leb 97 n && Nat.leb n 122) || Nat.eqb n 95.
Fixpoint colons (s : string) : nat :=
  match s with
  | EmptyString => 0
  | String a s' => (if Ascii.eqb a ":"%char then 1 else 0) + colons s'
  end%nat.
Definition arity (s : string) : nat :=
  match s with
  | EmptyString => 0
  | String a _ => if is_letter a then colons s else 1
  end%nat.

Fixpoint number (es : exprs) : nat :=
  match es with ENil => 0%nat | ECons _ es' => S (number es') end.

(** where a variable is named *)
Fixpoint names (x : string) (e : expr) : bool :=
  match e with
  | EVar _ y => String.eqb y x
  | ELit _ _ => false
  | EBlock _ _ _ ss => names_stmts x ss
  | ESend _ r _ es => names x r || names_args x es
  | ECascade _ r ms => names x r || names_msgs x ms
  | EAssign _ ts e => existsb (fun t => String.eqb (snd t) x) ts || names x e
  end
with names_args (x : string) (es : exprs) : bool :=
  match es with ENil => false | ECons e es' => names x e || names_args x es' end
with names_msgs (x : string) (ms : msgs) : bool :=
  match ms with
  | MNil => false
  | MCons _ _ es ms' => names_args x es || names_msgs x ms'
  end
with names_stmts (x : string) (ss : stmts) : bool :=
  match ss with
  | SNil => false
  | SExpr e ss' => names x e || names_stmts x ss'
  | SReturn e => names x e
  end.

(** a source text as the parser makes it: as many arguments as the selector
    asks, at most 255, and two messages at least in a cascade.  If strict,
    moreover, without what the compiler gets wrong: cascades of messages to
    super, and loops whose limit names the variable of the loop *)
Section Tidy.
  Variable strict : bool.

  Definition fits_selector (s : string) (es : exprs) : bool :=
    Nat.eqb (number es) (arity s) && Nat.leb (number es) 255.

  Fixpoint tidy (e : expr) : bool :=
    match e with
    | EVar _ _ | ELit _ _ => true
    | EBlock _ _ _ ss => tidy_stmts ss
    | ESend _ r s es =>
      fits_selector s es && tidy r && tidy_args es
      && match form_of r s es with
         | FTo _ l _ x _ _ => negb strict || negb (names x l)
         | _ => true
         end
    | ECascade _ r ms =>
      tidy r && tidy_msgs ms
      && match ms with MCons _ _ _ (MCons _ _ _ _) => true | _ => false end
      && (negb strict
          || negb match r with EVar _ x => String.eqb x "super" | _ => false end)
    | EAssign _ _ e => tidy e
    end
  with tidy_args (es : exprs) : bool :=
    match es with ENil => true | ECons e es' => tidy e && tidy_args es' end
  with tidy_msgs (ms : msgs) : bool :=
    match ms with
    | MNil => true
    | MCons _ s es ms' => fits_selector s es && tidy_args es && tidy_msgs ms'
    end
  with tidy_stmts (ss : stmts) : bool :=
    match ss with
    | SNil => true
    | SExpr e ss' => tidy e && tidy_stmts ss'
    | SReturn e => tidy e
    end.
End Tidy.

(** no jump of the compiled method spans exactly 256 or 65536 bytes *)
Definition no_edge (is : list (Z * Z)) : Prop :=
  forall b a, In (b, a) is -> b = bc_jump_back \/ b = bc_pop_jump_false ->
              a <> 256 /\ a <> 65536.

(** the method fits the fields of its header and the code is not huge *)
Definition fits (cm : cmethod) (c : ctx) (m : meth) : Prop :=
  (List.length (m_params m) < 32)%nat /\ (cm_temps cm < 64)%nat
  /\ Z.of_nat (List.length (flat (cm_is cm))) < 2 ^ 22
  /\ Z.of_nat (List.length (cm_lits cm)) < 2 ^ 16
  /\ Z.of_nat (List.length (c_ivars c)) < 2 ^ 16.

(** how deep loops from a number to another are nested *)
Fixpoint loops (e : expr) : Z :=
  match e with
  | EVar _ _ | ELit _ _ => 0
  | EBlock _ _ _ ss => loops_stmts ss
  | ESend _ r s es =>
    Z.max (loops r)
          (loops_args es + match form_of r s es with FTo _ _ _ _ _ _ => 1 | _ => 0 end)
  | ECascade _ r ms => Z.max (loops r) (loops_msgs ms)
  | EAssign _ _ e => loops e
  end
with loops_args (es : exprs) : Z :=
  match es with ENil => 0 | ECons e es' => Z.max (loops e) (loops_args es') end
with loops_msgs (ms : msgs) : Z :=
  match ms with
  | MNil => 0
  | MCons _ _ es ms' => Z.max (loops_args es) (loops_msgs ms')
  end
with loops_stmts (ss : stmts) : Z :=
  match ss with
  | SNil => 0
  | SExpr e ss' => Z.max (loops e) (loops_stmts ss')
  | SReturn e => loops e
  end.

(** loops from a number to another are nested three deep at most, and the method
    needs no more slots than the header can tell *)
Definition shallow (cm : cmethod) (m : meth) : Prop :=
  loops_stmts (m_body m) <= 3
  /\ cm_max cm + Z.of_nat (List.length (m_params m)) + Z.of_nat (cm_temps cm) < 249.

(** no part of the source lies before a given line *)
Fixpoint from (n : Z) (e : expr) : Prop :=
  match e with
  | EVar ln _ | ELit ln _ => n <= ln
  | EBlock ln _ _ ss => n <= ln /\ from_stmts n ss
  | ESend ln r _ es => n <= ln /\ from n r /\ from_args n es
  | ECascade ln r ms => n <= ln /\ from n r /\ from_msgs n ms
  | EAssign ln ts e => n <= ln /\ Forall (fun t => n <= fst t) ts /\ from n e
  end
with from_args (n : Z) (es : exprs) : Prop :=
  match es with ENil => True | ECons e es' => from n e /\ from_args n es' end
with from_msgs (n : Z) (ms : msgs) : Prop :=
  match ms with
  | MNil => True
  | MCons ln _ es ms' => n <= ln /\ from_args n es /\ from_msgs n ms'
  end
with from_stmts (n : Z) (ss : stmts) : Prop :=
  match ss with
  | SNil => True
  | SExpr e ss' => from n e /\ from_stmts n ss'
  | SReturn e => from n e
  end.
