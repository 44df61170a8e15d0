(** The shape of the code of each construct, with jumps that span what they
    should and the height of the stack that it really needs.  A relation between
    the model of the compiler and the proof that what it emits is right. *)
From Coq Require Import ZArith Lia List Bool Ascii String.
From Coq Require Import ZifyBool ZifyNat.
From Verif Require Import Base Bc Comp CompSpec.
Import ListNotations.
Local Open Scope string_scope.
Local Open Scope list_scope.
Local Open Scope Z_scope.

Notation syms := (list (string * nat * bool)).
Definition size (is : list (Z * Z)) : Z := Z.of_nat (List.length (flat is)).
Definition scope (l : syms) : cst := Cst [] l 0 0 0 0 0.

Section Code.
  Variable c : ctx.
  Variable L : list lit.
  Variable N : nat.

  Inductive Pushes : entry -> Z * Z -> Prop :=
  | p_self : Pushes InSelf (bc_push_self, 0)
  | p_special n : 0 <= n <= 2 -> Pushes (InSpecial n) (bc_push_special, n)
  | p_temp i ro : Pushes (InTemp i ro) (bc_push_temp, Z.of_nat i)
  | p_receiver i : Pushes (InReceiver i) (bc_push_receiver_variable, Z.of_nat i)
  | p_global g j : nth_error L j = Some (LVar g) ->
      Pushes (InGlobal g) (bc_push_lit_variable, Z.of_nat j).

  Inductive PushesLit : lit -> Z * Z -> Prop :=
  | p_int z : 0 <= z <= 0x7FFFFFFF -> PushesLit (LInt z) (bc_push_integer, z)
  | p_lit l j : nth_error L j = Some l -> PushesLit l (bc_push_lit_constant, Z.of_nat j).

  Inductive Line : list (Z * Z) -> Prop :=
  | line_none : Line []
  | line_one n : 0 <= n < 2 ^ 31 -> Line [(bc_line, n)].

  Inductive Stores (l : syms) : list (Z * string) -> list (Z * Z) -> Prop :=
  | st_nil : Stores l [] []
  | st_temp ln x ts i pre is :
      find_variable c (scope l) x = Some (InTemp i false) -> Line pre -> Stores l ts is ->
      Stores l ((ln, x) :: ts) (pre ++ (bc_store_temp, Z.of_nat i) :: is)
  | st_receiver ln x ts i pre is :
      find_variable c (scope l) x = Some (InReceiver i) -> Line pre -> Stores l ts is ->
      Stores l ((ln, x) :: ts) (pre ++ (bc_store_receiver_variable, Z.of_nat i) :: is)
  | st_global ln x ts g j pre is :
      find_variable c (scope l) x = Some (InGlobal g) -> nth_error L j = Some (LVar g) ->
      Line pre -> Stores l ts is ->
      Stores l ((ln, x) :: ts)
             (pre ++ (bc_store_lit_variable, Z.of_nat j) :: (bc_pop, 0)
                  :: (bc_push_lit_variable, Z.of_nat j) :: is).

  Inductive Sends : bool -> string -> nat -> list (Z * Z) -> Prop :=
  | se_one s n b : builtin_of b = Some (s, n) -> 0 <= b < 27 -> Sends false s n [(b, 0)]
  | se_imm s n b : builtin_of b = Some (s, n) -> 0 <= b < 256 ->
      Sends false s n [(bc_send_immediate, b)]
  | se_lit s n j : nth_error L j = Some (LSym s) -> (n < 256)%nat ->
      Sends false s n [(bc_send, Z.lor (Z.shiftl (Z.of_nat j) 8) (Z.of_nat n))]
  | se_super_imm s n b i : builtin_of b = Some (s, n) -> 0 <= b < 256 -> PushesLit LClass i ->
      Sends true s n [i; (bc_send_super_immediate, b)]
  | se_super_lit s n j i : nth_error L j = Some (LSym s) -> (n < 256)%nat ->
      PushesLit LClass i ->
      Sends true s n [i; (bc_send_super, Z.lor (Z.shiftl (Z.of_nat j) 8) (Z.of_nat n))].

  Definition bump (super : bool) : Z := if super then 1 else 0.

  Definition pj (on : value) : Z :=
    match on with VTrue => bc_pop_jump_true | _ => bc_pop_jump_false end.

  Inductive CE (l : syms) : expr -> list (Z * Z) -> Z -> Prop :=
  | ce_line n e is d : 0 <= n < 2 ^ 31 -> CE l e is d -> CE l e ((bc_line, n) :: is) d
  | ce_var ln x en i :
      find_variable c (scope l) x = Some en -> Pushes en i -> CE l (EVar ln x) [i] 1
  | ce_lit ln k i : PushesLit (lit_of k) i -> CE l (ELit ln k) [i] 1
  | ce_assign ln ts e is js d :
      CE l e is d -> Stores l ts js -> CE l (EAssign ln ts e) (is ++ js) (Z.max 1 d)
  | ce_send ln r s args ir dr ia da pre is :
      form_of r s args = FSend -> CE l r ir dr -> CA l args ia da -> Line pre ->
      Sends (is_super r) s (number args) is ->
      CE l (ESend ln r s args) (ir ++ ia ++ pre ++ is)
         (Z.max dr (1 + Z.max da (Z.of_nat (number args) + bump (is_super r))))
  | ce_cascade ln r ln' s args ms ir dr ia da pre is ims dms :
      is_super r = false -> ms <> MNil ->
      CE l r ir dr -> CA l args ia da -> Line pre -> Sends false s (number args) is ->
      CM l ms ims dms ->
      CE l (ECascade ln r (MCons ln' s args ms))
         (ir ++ (bc_dup, 0) :: ia ++ pre ++ is ++ ims)
         (Z.max dr (Z.max (2 + da) (Z.max 2 dms)))
  | ce_while ln r s args on cond body ic dc ib db j jb :
      form_of r s args = FWhile on cond body -> on = VTrue \/ on = VFalse ->
      CB l cond ic dc -> CB l body ib db ->
      j = 2 * size (ib ++ [(bc_pop, 0); (bc_jump_back, jb)]) ->
      jb = 2 * size (ic ++ [(pj on, 2 * size [(bc_jump, j)]); (bc_jump, j)]
                        ++ ib ++ [(bc_pop, 0); (bc_jump_back, jb)]) ->
      CE l (ESend ln r s args)
         (ic ++ [(pj on, 2 * size [(bc_jump, j)]); (bc_jump, j)]
             ++ ib ++ [(bc_pop, 0); (bc_jump_back, jb); (bc_push_special, 0)])
         (Z.max 1 (Z.max dc db))
  | ce_while0 ln r s args on cond ic dc j jb :
      form_of r s args = FWhile on cond SNil -> on = VTrue \/ on = VFalse ->
      CB l cond ic dc ->
      j = 2 * size [(bc_jump_back, jb)] ->
      jb = 2 * size (ic ++ [(pj on, 2 * size [(bc_jump, j)]); (bc_jump, j);
                            (bc_jump_back, jb)]) ->
      CE l (ESend ln r s args)
         (ic ++ [(pj on, 2 * size [(bc_jump, j)]); (bc_jump, j);
                 (bc_jump_back, jb); (bc_push_special, 0)])
         (Z.max 1 dc)
  | ce_repeat ln r s args body ib db jb :
      form_of r s args = FRepeat body -> CB l body ib db ->
      jb = 2 * size (ib ++ [(bc_pop, 0); (bc_jump_back, jb)]) ->
      CE l (ESend ln r s args)
         (ib ++ [(bc_pop, 0); (bc_jump_back, jb); (bc_push_special, 0)]) (Z.max 1 db)
  | ce_if ln r r' s args t f ir dr it dt if_ df :
      form_of r s args = FIf r' t f -> CE l r' ir dr -> CB l t it dt -> CB l f if_ df ->
      CE l (ESend ln r s args)
         (ir ++ (bc_pop_jump_false, 2 * size (it ++ if returns t then [] else [(bc_jump, 2 * size if_)]))
             :: it ++ (if returns t then [] else [(bc_jump, 2 * size if_)]) ++ if_)
         (Z.max dr (Z.max dt df))
  | ce_if_false ln r r' s args f ir dr if_ df :
      form_of r s args = FIf r' SNil f -> CE l r' ir dr -> CB l f if_ df ->
      CE l (ESend ln r s args)
         (ir ++ (bc_pop_jump_true, 2 * size (if_ ++ if returns f then [] else [(bc_jump, 2)]))
             :: if_ ++ (if returns f then [] else [(bc_jump, 2)]) ++ [(bc_push_special, 0)])
         (Z.max dr (Z.max 1 df))
  | ce_and ln r r' s args b ir dr ib db :
      form_of r s args = FAnd r' b -> CE l r' ir dr -> CB l b ib db ->
      CE l (ESend ln r s args)
         (ir ++ [(bc_dup, 0); (bc_pop_jump_false, 2 * size ((bc_pop, 0) :: ib)); (bc_pop, 0)] ++ ib)
         (Z.max dr (Z.max 2 db))
  | ce_or ln r r' s args b ir dr ib db :
      form_of r s args = FOr r' b -> CE l r' ir dr -> CB l b ib db ->
      CE l (ESend ln r s args)
         (ir ++ [(bc_dup, 0); (bc_pop_jump_true, 2 * size ((bc_pop, 0) :: ib)); (bc_pop, 0)] ++ ib)
         (Z.max dr (Z.max 2 db))
  | ce_times ln r r' s args b ir dr ib db j jb :
      form_of r s args = FTimes r' b -> CE l r' ir dr -> CB l b ib db ->
      j = 2 * size ([(bc_push_integer, 1); (bc_minus, 0)] ++ ib ++ [(bc_pop, 0); (bc_jump_back, jb)]) ->
      jb = 2 * size ([(bc_dup, 0); (bc_push_integer, 1); (bc_greater_equal, 0); (bc_pop_jump_false, j);
                      (bc_push_integer, 1); (bc_minus, 0)] ++ ib ++ [(bc_pop, 0); (bc_jump_back, jb)]) ->
      CE l (ESend ln r s args)
         (ir ++ [(bc_dup, 0)]
             ++ [(bc_dup, 0); (bc_push_integer, 1); (bc_greater_equal, 0); (bc_pop_jump_false, j);
                 (bc_push_integer, 1); (bc_minus, 0)] ++ ib
             ++ [(bc_pop, 0); (bc_jump_back, jb); (bc_pop, 0)])
         (Z.max dr (Z.max 4 (2 + db)))
  | ce_to ln r r' s args lim z x b by_ i ir dr il dl ib db istep j jb dup :
      form_of r s args = FTo r' lim z x b by_ -> names x lim = false ->
      CE l r' ir dr -> CE ((x, i, true) :: l) lim il dl ->
      CB ((x, i, true) :: l) b ib db -> ~ In i (map (fun y => snd (fst y)) l) ->
      (i < N)%nat ->
      CE ((x, i, true) :: l) (ELit 0 (KInt z)) istep 1 ->
      0 <= dup < 2 ^ 31 ->
      j = 2 * size (ib ++ [(bc_pop, 0); (bc_dup, 0); (bc_push_temp, Z.of_nat i)] ++ istep
                       ++ [(bc_plus, 0); (bc_store_temp, Z.of_nat i); (bc_jump_back, jb)]) ->
      jb = 2 * size ([(if 0 <? z then bc_greater_equal else bc_less_equal, 0); (bc_pop_jump_false, j)]
                       ++ ib ++ [(bc_pop, 0); (bc_dup, 0); (bc_push_temp, Z.of_nat i)] ++ istep
                       ++ [(bc_plus, 0); (bc_store_temp, Z.of_nat i); (bc_jump_back, jb)]) ->
      CE l (ESend ln r s args)
         (ir ++ [(bc_store_temp, Z.of_nat i)] ++ il
             ++ [(bc_dup, dup); (bc_push_temp, Z.of_nat i)]
             ++ [(if 0 <? z then bc_greater_equal else bc_less_equal, 0); (bc_pop_jump_false, j)]
             ++ ib ++ [(bc_pop, 0); (bc_dup, 0); (bc_push_temp, Z.of_nat i)] ++ istep
             ++ [(bc_plus, 0); (bc_store_temp, Z.of_nat i); (bc_jump_back, jb)]
             ++ [(bc_pop, 0)])
         (Z.max dr (Z.max (1 + dl) (Z.max 5 (2 + db))))
  with CA (l : syms) : exprs -> list (Z * Z) -> Z -> Prop :=
  | ca_nil : CA l ENil [] 0
  | ca_cons e es is js d ds : CE l e is d -> CA l es js ds ->
      CA l (ECons e es) (is ++ js) (Z.max d (1 + ds))
  with CM (l : syms) : msgs -> list (Z * Z) -> Z -> Prop :=
  | cm_last ln s args ia da pre is :
      CA l args ia da -> Line pre -> Sends false s (number args) is ->
      CM l (MCons ln s args MNil) ((bc_pop, 0) :: ia ++ pre ++ is) (Z.max 2 (1 + da))
  | cm_more ln s args ms ia da pre is ims dms :
      ms <> MNil ->
      CA l args ia da -> Line pre -> Sends false s (number args) is -> CM l ms ims dms ->
      CM l (MCons ln s args ms) ((bc_pop, 0) :: (bc_dup, 0) :: ia ++ pre ++ is ++ ims)
         (Z.max (2 + da) (Z.max 2 dms))
  with CB (l : syms) : stmts -> list (Z * Z) -> Z -> Prop :=
  | cb_nil pre : Line pre -> CB l SNil (pre ++ [(bc_push_special, 0)]) 1
  | cb_return e is d : CE l e is d -> CB l (SReturn e) (is ++ [(bc_return, 0)]) d
  | cb_last e is d : CE l e is d -> CB l (SExpr e SNil) is d
  | cb_more e ss is js d ds : ss <> SNil -> CE l e is d -> CB l ss js ds ->
      CB l (SExpr e ss) (is ++ (bc_pop, 0) :: js) (Z.max d ds).
End Code.
