(** What programs that use exceptions mean.

    Specification, after the definitions of the messages in the ANSI standard
    (quoted in tests/AnsiDB.st:3227-3232, 5364-5367, 8637-8795).  It does not
    depend on Exc.v: there are no backtraces and no states of contexts; a handler
    block runs in the environment its on:do: was evaluated in. *)
From Coq Require Import List ZArith Bool.
From Verif Require Import Base ExcLang.
Import ListNotations.
Local Open Scope nat_scope.

(** Which of several handlers of an on:do:on:do:... gets an exception: the one
    that names the nearest ancestor of the class, and the first such one. *)
Definition names (s : selector) (a : eclass) : bool :=
  match s with
  | Class c => if list_eq_dec Nat.eq_dec c a then true else false
  | Set_of cs => if in_dec (list_eq_dec Nat.eq_dec) a cs then true else false
  end.

Fixpoint first_naming (hs : list (selector * expr)) (a : eclass) : option (nat * expr) :=
  match hs with
  | [] => None
  | (s, h) :: hs' =>
      if names s a then Some (0, h)
      else match first_naming hs' a with
           | Some (p, g) => Some (S p, g)
           | None => None
           end
  end.

Fixpoint choose (hs : list (selector * expr)) (c : eclass) : option (nat * expr) :=
  match first_naming hs c with
  | Some r => Some r
  | None => match c with [] => None | _ :: s => choose hs s end
  end.

(** Whether a handler handles a class, and whether one other than the [p]th of a
    list does. *)
Definition handles (s : selector) (c : eclass) : bool :=
  match choose [(s, Val None)] c with Some _ => true | None => false end.

Definition any_handles (hs : list (selector * expr)) (c : eclass) : bool :=
  existsb (fun sh => handles (fst sh) c) hs.

Fixpoint other_handles (p : nat) (hs : list (selector * expr)) (c : eclass) : bool :=
  match hs with
  | [] => false
  | (s, _) :: hs' =>
      match p with
      | O => any_handles hs' c
      | S p => handles s c || other_handles p hs' c
      end
  end.

(** Whether a handler may be used.  [Open]: it is in the environment.  [Running p
    g]: its [p]th block is being evaluated (and [g] uses of return: had been made
    when it began).  [Closed]: it belongs to the code that was interrupted.
    Only [Open] ones are in the environment; the others are there to be able to
    tell which programs behave as they should, see [strict] below. *)
Inductive status := Open | Running (p g : nat) | Closed.

(** An established handler (on:do:) and a signaled exception: its class, the
    on:do: that handles it, where resume: returns to, the environments to be
    restored by return: and by resume:, and two marks that concern [strict]. *)
Inductive handler := Handler (s : status) (id : nat) (hs : list (selector * expr))
                             (body : expr) (vars : list sig)
with sig := Sig (c : eclass) (id resume : nat) (below here : list handler)
                (passed frozen : bool).

Definition h_status h := let '(Handler s _ _ _ _) := h in s.
Definition h_id h := let '(Handler _ i _ _ _) := h in i.
Definition h_handlers h := let '(Handler _ _ hs _ _) := h in hs.
Definition h_body h := let '(Handler _ _ _ b _) := h in b.
Definition h_vars h := let '(Handler _ _ _ _ v) := h in v.
Definition with_status s h := let '(Handler _ i hs b v) := h in Handler s i hs b v.
Definition close := with_status Closed.

Definition s_class x := let '(Sig c _ _ _ _ _ _) := x in c.
Definition s_id x := let '(Sig _ i _ _ _ _ _) := x in i.
Definition s_resume x := let '(Sig _ _ r _ _ _ _) := x in r.
Definition s_below x := let '(Sig _ _ _ b _ _ _) := x in b.
Definition s_here x := let '(Sig _ _ _ _ h _ _) := x in h.
Definition s_passed x := let '(Sig _ _ _ _ _ p _) := x in p.
Definition s_frozen x := let '(Sig _ _ _ _ _ _ f) := x in f.
Definition freeze x := let '(Sig c i r b h p _) := x in Sig c i r b h p true.

(** Finding the handler of an exception in an environment, innermost first. *)
Inductive found :=
| No_handler
| Found (above : list handler) (h : handler) (p : nat) (block : expr) (below : list handler)
| Stray.  (** only if [strict]: a handler that is not in the environment names it *)

(** Whether a handler that is not in the environment could get in the way. *)
Definition in_the_way (returns : nat) (h : handler) (c : eclass) : bool :=
  match h_status h with
  | Open => false
  | Closed => any_handles (h_handlers h) c
  | Running p g =>
      if g <? returns then any_handles (h_handlers h) c
      else other_handles p (h_handlers h) c
  end.

Fixpoint look (strict : bool) (returns : nat) (env : list handler) (c : eclass) : found :=
  match env with
  | [] => No_handler
  | h :: env' =>
      let next :=
        match look strict returns env' c with
        | Found above g p b below => Found (h :: above) g p b below
        | r => r
        end in
      match h_status h with
      | Open =>
          match choose (h_handlers h) c with
          | Some (p, b) => Found [] h p b env'
          | None => next
          end
      | _ => if strict && in_the_way returns h c then Stray else next
      end
  end.

(** What the evaluation of an expression leads to: a value; leaving everything up
    to an on:do: or to a signal (after which that environment is in effect);
    evaluating an on:do: anew; an end. *)
Inductive sres :=
| SGot (v : value)
| SJump (target : nat) (env : list handler) (v : value)
| SRedo (target : nat) (env : list handler)
| SEnd (e : ending)
| SStray.  (** only if [strict] *)

(** The environment in which ensure: blocks run while code is being left. *)
Definition leaving (env target : list handler) : list handler :=
  map close (firstn (length env - length target) env) ++ target.

(** The meaning of an expression.  With [strict], programs are set apart
    ([SStray]) that
    - signal, in a handler block, an exception that an on:do: inside the
      protected block also names, or that another block of the same on:do:
      names, or that the same on:do: names after the handler block has used
      return: (in an on:do: of its own);
    - leave the handler block that pass or outer lead to by its end, or resume an
      exception after pass, or pass one to its default action that resumes it;
    - use retry;
    - resume an exception other than that of the innermost handler block;
    - use exceptions already signaled in an ensure: block while code is being left;
    - use classes more than 99999 levels below Exception.
    [returns] counts the uses of return:. *)
Fixpoint mean (strict : bool) (fuel lv : nat) (env : list handler) (vars : list sig)
    (e : expr) (returns : nat) (log : list Z) {struct fuel}
  : option (sres * nat * list Z) :=
  match fuel with
  | O => None
  | S fuel =>
    let stray := Some (SStray, returns, log) in
    let default c resume returns log :=
      if default_answers c then Some (resume, returns, log)
      else Some (SEnd (Unhandled c), returns, log) in
    (* the handler block [b] of [h] is evaluated; resume: returns to [target] *)
    let handle c above h p b below target here passed log :=
      mean strict fuel (S lv)
        (map close above ++ with_status (Running p returns) h :: below)
        (Sig c (h_id h) target below here passed false :: h_vars h) b returns log in
    match e with
    | Val v => Some (SGot v, returns, log)
    | Say n => Some (SGot None, returns, log ++ [n])
    | If_said n a b =>
        if existsb (Z.eqb n) log then mean strict fuel lv env vars a returns log
        else mean strict fuel lv env vars b returns log
    | Seq a b =>
        match mean strict fuel lv env vars a returns log with
        | Some (SGot _, returns, log) => mean strict fuel lv env vars b returns log
        | r => r
        end
    | Signal c =>
        if strict && negb (Z.of_nat (length c) <? 100000)%Z then stray else
        match look strict returns env c with
        | Stray => stray
        | No_handler => default c (SGot None) returns log
        | Found above h p b below =>
            match handle c above h p b below lv env false log with
            | Some (SGot v, returns, log) => Some (SJump (h_id h) below v, returns, log)
            | Some (SJump t en v, returns, log) =>
                if Nat.eqb t lv then Some (SGot v, returns, log)
                else Some (SJump t en v, returns, log)
            | r => r
            end
        end
    | On_do body hs =>
        match mean strict fuel (S lv) (Handler Open lv hs body vars :: env) vars body
                   returns log with
        | Some (SJump t en v, returns, log) =>
            if Nat.eqb t lv then Some (SGot v, returns, log)
            else Some (SJump t en v, returns, log)
        | Some (SRedo t en, returns, log) =>
            if Nat.eqb t lv then mean strict fuel lv env vars (On_do body hs) returns log
            else Some (SRedo t en, returns, log)
        | r => r
        end
    | Ensure body fin =>
        match mean strict fuel lv env vars body returns log with
        | Some (SGot v, returns, log) =>
            match mean strict fuel lv env vars fin returns log with
            | Some (SGot _, returns, log) => Some (SGot v, returns, log)
            | r => r
            end
        | Some (SJump t en v, returns, log) =>
            match mean strict fuel lv (leaving env en) (map freeze vars) fin returns log with
            | Some (SGot _, returns, log) => Some (SJump t en v, returns, log)
            | r => r
            end
        | Some (SRedo t en, returns, log) =>
            match mean strict fuel lv (leaving env en) (map freeze vars) fin returns log with
            | Some (SGot _, returns, log) => Some (SRedo t en, returns, log)
            | r => r
            end
        | r => r
        end
    | Ex_return k a =>
        match nth_error vars k with
        | None => Some (SEnd Meaningless, returns, log)
        | Some x =>
            if strict && s_frozen x then stray else
            match mean strict fuel lv env vars a returns log with
            | Some (SGot v, returns, log) =>
                Some (SJump (s_id x) (s_below x) v, S returns, log)
            | r => r
            end
        end
    | Ex_resume k a =>
        match nth_error vars k with
        | None => Some (SEnd Meaningless, returns, log)
        | Some x =>
            if strict && (s_frozen x || s_passed x || negb (Nat.eqb k 0)) then stray else
            match mean strict fuel lv env vars a returns log with
            | Some (SGot v, returns, log) =>
                if resumable (s_class x)
                then Some (SJump (s_resume x) (s_here x) v, returns, log)
                else Some (SEnd (Not_resumable (s_class x)), returns, log)
            | r => r
            end
        end
    | Ex_outer k =>
        match nth_error vars k with
        | None => Some (SEnd Meaningless, returns, log)
        | Some x =>
            if strict && (s_frozen x || negb (Z.of_nat (length (s_class x)) <? 100000)%Z)
            then stray else
            match look strict returns (s_below x) (s_class x) with
            | Stray => stray
            | No_handler => default (s_class x) (SGot None) returns log
            | Found above h p b below =>
                match handle (s_class x)
                        (firstn (length env - length (s_below x)) env ++ above)
                        h p b below lv env false log with
                | Some (SGot v, returns, log) =>
                    if strict then Some (SStray, returns, log)
                    else Some (SJump (h_id h) below v, returns, log)
                | Some (SJump t en v, returns, log) =>
                    if Nat.eqb t lv then Some (SGot v, returns, log)
                    else Some (SJump t en v, returns, log)
                | r => r
                end
            end
        end
    | Ex_pass k =>
        match nth_error vars k with
        | None => Some (SEnd Meaningless, returns, log)
        | Some x =>
            if strict && (s_frozen x || negb (Z.of_nat (length (s_class x)) <? 100000)%Z)
            then stray else
            match look strict returns (s_below x) (s_class x) with
            | Stray => stray
            | No_handler =>
                if strict && default_answers (s_class x) then stray
                else default (s_class x) (SJump (s_resume x) (s_here x) None) returns log
            | Found above h p b below =>
                match handle (s_class x)
                        (firstn (length env - length (s_below x)) env ++ above)
                        h p b below (s_resume x) (s_here x) true log with
                | Some (SGot v, returns, log) =>
                    if strict then Some (SStray, returns, log)
                    else Some (SJump (h_id h) below v, returns, log)
                | r => r
                end
            end
        end
    | Ex_retry k =>
        match nth_error vars k with
        | None => Some (SEnd Meaningless, returns, log)
        | Some x =>
            if strict then stray
            else Some (SRedo (s_id x) (s_below x), returns, log)
        end
    end
  end.

(** A statement, executed on its own: how it ends and what it has written. *)
Definition answer (strict : bool) (fuel : nat) (p : expr) : option (option (ending * list Z)) :=
  match mean strict fuel 0 [] [] p 0 [] with
  | Some (SGot v, _, log) => Some (Some (Answers v, log))
  | Some (SEnd x, _, log) => Some (Some (x, log))
  | Some (SJump _ _ _, _, log) => Some (Some (Meaningless, log))
  | Some (SRedo _ _, _, log) => Some (Some (Meaningless, log))
  | Some (SStray, _, _) => Some None
  | None => None
  end.

(** The messages a program sends to exceptions. *)
Inductive message := M_return | M_resume | M_outer | M_pass | M_retry.

Fixpoint sends (e : expr) : list message :=
  match e with
  | Val _ | Say _ | Signal _ => []
  | If_said _ a b | Seq a b | Ensure a b => sends a ++ sends b
  | On_do body hs =>
      sends body
      ++ (fix all (hs : list (selector * expr)) : list message :=
            match hs with [] => [] | (_, h) :: hs' => sends h ++ all hs' end) hs
  | Ex_return _ a => M_return :: sends a
  | Ex_resume _ a => M_resume :: sends a
  | Ex_outer _ => [M_outer]
  | Ex_pass _ => [M_pass]
  | Ex_retry _ => [M_retry]
  end.

(** Which handler of an on:do:on:do:... is to be picked: it names an ancestor [a]
    of the class (or the class), none names a nearer one and none before it names
    [a]. *)
Definition picks (hs : list (selector * value)) (c : eclass) (v : value) : Prop :=
  exists l1 s l2 a pre,
    hs = l1 ++ (s, v) :: l2 /\ c = pre ++ a /\ names s a = true
    /\ (forall s', In s' (map fst hs) ->
        forall pre' b, c = pre' ++ b -> length a < length b -> names s' b = false)
    /\ (forall s', In s' (map fst l1) -> names s' a = false).
