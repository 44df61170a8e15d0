(** Contexts, returns and ensure: libgst/interp.c:1018-1262, kernel/BlkClosure.st:264-274. Contexts are numbered in
    the order of their creation and are never reused: the stack of contexts that are not yet objects
    (libgst/interp.c:1035-1036) is left out. *)
From Verif Require Import UnwindLang.

(** What is left to do in a context: its instruction pointer and its stack. *)
Inductive frame :=
| KOut | KSeq (e : expr) (env : list value) | KIf (a b : expr) (env : list value) | KValue | KSend (m : nat) | KRet
| KEns (c : expr) (env : list value) | KEnsure (b : value) | KGuard
| KMark               (* valueAndResumeOnUnwind *)
| KResult (c : value) (* result := ... aBlock value *)
| KAnswer (r : value). (* ^result *)
(** A context (libgst/interp.h:130-230): the bits METHOD, DISABLED and UNWIND of its flags, parentContext,
    outerContext. *)
Record ctx := Ctx { meth : bool; dis : bool; unw : bool; par : option nat; outer : nat; kon : list frame }.
Definition heap := nat -> ctx.
Definition upd (h : heap) (i : nat) (c : ctx) : heap := fun j => if Nat.eqb j i then c else h j.
Definition set_par (h : heap) (i : nat) (p : option nat) : heap :=
  upd h i (Ctx (meth (h i)) (dis (h i)) (unw (h i)) p (outer (h i)) (kon (h i))).
Definition set_dis (h : heap) (i : nat) : heap :=
  upd h i (Ctx (meth (h i)) true (unw (h i)) (par (h i)) (outer (h i)) (kon (h i))).
Definition set_unw (h : heap) (i : nat) : heap :=
  upd h i (Ctx (meth (h i)) (dis (h i)) true (par (h i)) (outer (h i)) (kon (h i))).
Definition set_kon (h : heap) (i : nat) (k : list frame) : heap :=
  upd h i (Ctx (meth (h i)) (dis (h i)) (unw (h i)) (par (h i)) (outer (h i)) k).
(** libgst/interp.c:1066-1067, 1177-1178 *)
Definition clear (h : heap) (i : nat) : heap :=
  upd h i (Ctx (meth (h i)) false false (par (h i)) (outer (h i)) (kon (h i))).
(** CONTEXT_FLAGS == (MCF_IS_METHOD_CONTEXT | MCF_IS_DISABLED_CONTEXT) *)
Definition skipped (c : ctx) : bool := meth c && dis c && negb (unw c).

(** unwind_context (libgst/interp.c:1018-1075): the context to continue in. *)
Fixpoint unwind_context (fuel : nat) (h : heap) (this : nat) : outcome (heap * nat) :=
  match fuel with
  | O => OutOfFuel
  | S fuel =>
      match par (h this) with
      | None => UB
      | Some q =>
          let h := set_par h this None in
          if skipped (h q) then unwind_context fuel h q else Ok (clear h q, q)
      end
  end.
(** The first loop of disable_non_unwind_contexts (libgst/interp.c:1199-1232); [chain] is the context whose
    parentContext is assigned to. Answers whether [target] was found. *)
Fixpoint disable (fuel : nat) (h : heap) (old chain target : nat) : outcome (heap * bool) :=
  match fuel with
  | O => OutOfFuel
  | S fuel =>
      let p := par (h old) in
      let h := if meth (h old) then h else set_par h old None in
      match p with
      | None => Ok (set_par h chain None, false)
      | Some q =>
          if Nat.eqb q target then Ok (set_par h chain (Some q), true)
          else if meth (h q) then disable fuel (set_par (set_dis h q) chain (Some q)) q q target
          else disable fuel h q chain target
      end
  end.
(** The second loop (libgst/interp.c:1234-1262), from the target: [chain] is the target. *)
Fixpoint skip_disabled (fuel : nat) (h : heap) (new chain : nat) : outcome (heap * bool) :=
  match fuel with
  | O => OutOfFuel
  | S fuel =>
      if skipped (h new) then
        match par (h new) with
        | None => Ok (set_par h chain None, false)
        | Some q => skip_disabled fuel (set_par h new None) q chain
        end
      else Ok (set_par h chain (par (h new)), true)
  end.
Definition disable_non_unwind_contexts (fuel : nat) (h : heap) (this target : nat) : outcome (heap * bool) :=
  olet (h, found) := disable fuel h this this target in
  if found then skip_disabled fuel h target target else Ok (h, false).
(** unwind_to (libgst/interp.c:1119-1187): false if the context to return to was not found. *)
Fixpoint unwind_to (fuel : nat) (h : heap) (this target : nat) : outcome (heap * nat * bool) :=
  match fuel with
  | O => OutOfFuel
  | S fuel =>
      if Nat.eqb this target then Ok (clear h this, this, true)
      else
        match par (h this) with
        | None => UB
        | Some q =>
            if unw (h q) then
              olet (h, found) := disable_non_unwind_contexts fuel h this target in
              olet (h, new) := unwind_context fuel h this in
              Ok (h, new, found)
            else unwind_to fuel (set_par h this None) q target
        end
  end.
(** The loop of unwind_method that finds the method (libgst/interp.c:1091-1097). *)
Fixpoint find_home (fuel : nat) (h : heap) (i : nat) : nat :=
  match fuel with
  | O => i
  | S fuel => if meth (h i) then i else find_home fuel h (outer (h i))
  end.

(** ** The machine *)
Inductive control := Ev (e : expr) (env : list value) | Rt (v : value).
Record state := St { this : nat; ctl : control; kont : list frame; hp : heap; next : nat; trace : list value }.
(** [Failed]: an error is signaled, for a message that is not understood or a return from a method that has ended
    (badReturnError, kernel/Object.st:1380-1385); what happens then is not modelled. [Wrong]: the VM would use nil as a
    context, or signal badReturnError although the method has not ended. *)
Inductive step_result := Next (s : state) | Done (v : value) (t : list value) | Failed (t : list value) | Wrong.
Section Machine.
  Variable methods : list expr.
  (** Return to the caller (libgst/vm.def:854-861). *)
  Definition answer (s : state) (v : value) : step_result :=
    match unwind_context (S (next s)) (hp s) (this s) with
    | Ok (h, q) => Next (St q (Rt v) (kon (h q)) h (next s) (trace s))
    | _ => Wrong
    end.
  (** Activating a block from the current context, in which [k] is left to do (libgst/interp.c:1830-1888,
      send_block_value). *)
  Definition enter (s : state) (v : value) (k : list frame) : step_result :=
    match v with
    | VClo c env o =>
        Next (St (next s) (Ev c env) [] (upd (set_kon (hp s) (this s) k) (next s) (Ctx false false false (Some (this s)) o []))
                 (S (next s)) (trace s))
    | _ => Failed (trace s)
    end.
  Definition is_block (v : value) : bool := match v with VClo _ _ _ => true | _ => false end.
  (** Activating a method. *)
  Definition activate (s : state) (c : control) (k k' : list frame) : step_result :=
    Next (St (next s) c k' (upd (set_kon (hp s) (this s) k) (next s) (Ctx true false false (Some (this s)) O []))
             (S (next s)) (trace s)).
  (** ^v (libgst/vm.def:838-861, unwind_method in libgst/interp.c:1079-1116). *)
  Definition return_from (s : state) (v : value) : step_result :=
    if meth (hp s (this s)) then answer s v
    else
      match par (hp s (find_home (S (next s)) (hp s) (this s))) with
      | None => Failed (trace s)
      | Some t =>
          match unwind_to (S (next s)) (hp s) (this s) t with
          | Ok (h, q, true) => Next (St q (Rt v) (kon (h q)) h (next s) (trace s))
          | _ => Wrong
          end
      end.
  Definition step (s : state) : step_result :=
    match ctl s with
    | Ev e env =>
        let go c k := Next (St (this s) c (k ++ kont s) (hp s) (next s) (trace s)) in
        match e with
        | Lit z => go (Rt (VInt z)) []
        | Var i => go (Rt (nth i env VNil)) []
        | Out e => go (Ev e env) [KOut]
        | Seq a b => go (Ev a env) [KSeq b env]
        | If c a b => go (Ev c env) [KIf a b env]
        | Blk e => go (Rt (VClo e env (this s))) []
        | Value e => go (Ev e env) [KValue]
        | Send m e => go (Ev e env) [KSend m]
        | Ret e => go (Ev e env) [KRet]
        | Ens b c => go (Ev b env) [KEns c env]
        | Guard b => go (Ev b env) [KGuard]
        end
    | Rt v =>
        match kont s with
        | [] => if Nat.eqb (this s) 0 then Done v (trace s) else answer s v
        | f :: k =>
            let go c k' := Next (St (this s) c (k' ++ k) (hp s) (next s) (trace s)) in
            match f with
            | KOut => Next (St (this s) (Rt v) k (hp s) (next s) (trace s ++ [v]))
            | KSeq e env => go (Ev e env) []
            | KIf a b env => go (Ev (match v with VInt 0 => b | _ => a end) env) []
            | KValue => enter s v k
            | KSend m => activate s (Ev (nth m methods (Lit 0)) [v]) k []
            | KRet => return_from s v
            | KEns c env => go (Ev c env) [KEnsure v]
            | KEnsure b => if is_block b then activate s (Rt b) k [KMark; KResult v] else Failed (trace s)
            | KGuard => if is_block v then activate s (Rt v) k [KMark] else Failed (trace s)
            (* libgst/prims.def:2713-2727 *)
            | KMark => enter (St (this s) (ctl s) (kont s) (set_unw (hp s) (this s)) (next s) (trace s)) v k
            | KResult c => go (Rt c) [KValue; KAnswer v]
            | KAnswer r => go (Rt r) []
            end
        end
    end.
  Fixpoint run (n : nat) (s : state) : step_result :=
    match n with
    | O => Next s
    | S n => match step s with Next s => run n s | r => r end
    end.
  (** The statement [main] executed by its own method; context 0 is that of libgst/interp.c:2240-2260. *)
  Definition start (main : expr) : state :=
    St 1 (Ev main []) [] (upd (fun _ => Ctx true false true None O []) 1 (Ctx true false false (Some O) O [])) 2 [].
End Machine.
