(** Signaling and handling of exceptions, as coded.

    Models kernel/ExcHandling.st:126-133, 183-203, 249-255, 330-386, 418-463,
    493-547 and kernel/BlkClosure.st:48-93, 186-243.  Simplified:
    - unwinding (`continue:', and `^' from a block) is a jump to a context that
      runs the `ensure:' blocks on its way, innermost first (the code that does
      it is modelled in Unwind.v);
    - the model ends where the default action of an unhandled exception starts
      (resignalAsUnhandled:, ExcHandling.st:388-402);
    - an exception is signaled only once, and its attributes are left out. *)
From Coq Require Import List ZArith Bool.
From Verif Require Import Base ExcLang.
Import ListNotations.
Local Open Scope nat_scope.

(** Whether two classes are the same (`==', ExcHandling.st:194). *)
Fixpoint same_class (c d : eclass) : bool :=
  match c, d with
  | [], [] => true
  | x :: c', y :: d' => Nat.eqb x y && same_class c' d'
  | _, _ => false
  end.

(** The loop of Exception class>>goodness: (ExcHandling.st:189-197). *)
Fixpoint goodness_loop (self c : eclass) (depth : Z) : Z :=
  let depth := if same_class c self then 0%Z else depth in
  match c with
  | [] => depth
  | _ :: s => goodness_loop self s (depth + 1)
  end.

(** Exception class>>goodness: (ExcHandling.st:183-203) and
    ExceptionSet>>goodness: (ExcHandling.st:74-82). *)
Definition goodness (s : selector) (c : eclass) : Z :=
  match s with
  | Class d => goodness_loop d c (-100000)
  | Set_of ds => fold_left (fun old d => Z.max old (goodness_loop d c (-100000))) ds (-1)%Z
  end.

(** An exception object (ExcHandling.st:112): its class, the on:do: context that
    handles it, the state of that context to be restored (previousState), and
    the activation of activateHandler: that resumeBlock returns from. *)
Record exc := Exc {
  x_class : eclass;
  x_context : nat;
  x_previous : Z;
  x_resume : nat
}.

(** A context of on:do: (BlkClosure.st:186-243): its identity, its arguments,
    the temporary `active', the receiver, and the variables the blocks see. *)
Record frame := Frame {
  f_id : nat;
  f_handlers : list (selector * expr);
  f_active : Z;
  f_body : expr;
  f_vars : list exc
}.

(** context at: context numArgs + 1 put: a *)
Definition put_active (f : frame) (a : Z) : frame :=
  Frame (f_id f) (f_handlers f) a (f_body f) (f_vars f).

(** The loop over the arguments of on:do: (BlkClosure.st:64-81): [i] is the
    number of the argument, [best] the best handler so far. *)
Fixpoint best_handler (hs : list (selector * expr)) (i : Z) (c : eclass) (active : Z)
    (best : option (Z * expr)) (best_goodness : Z) : option (Z * expr) :=
  match hs with
  | [] => best
  | (s, h) :: hs' =>
      let g := goodness s c in
      let g := if (-1 <? g)%Z && Z.testbit active (i - 1) then (-1)%Z else g in
      if (best_goodness <? g)%Z
      then best_handler hs' (i + 2) c active (Some (i, h)) g
      else best_handler hs' (i + 2) c active best best_goodness
  end.

(** exceptionHandlerSearchBlock (BlkClosure.st:54-93), applied to one context:
    the number of the handler and its block. *)
Definition search_frame (f : frame) (c : eclass) : option (Z * expr) :=
  if (f_active f =? -1)%Z then None
  else best_handler (f_handlers f) 1 c (f_active f) None (-1).

(** instantiateNextHandlerFrom: (ExcHandling.st:330-343): the first context of
    the backtrace, from the innermost one, that has a handler.  Answers the
    contexts after the search (with the handler marked as active), the context
    found and as it was, and the block. *)
Fixpoint search (stk : list frame) (c : eclass) : option (list frame * frame * expr) :=
  match stk with
  | [] => None
  | f :: stk' =>
      match search_frame f c with
      | Some (i, h) => Some (put_active f (Z.setbit (f_active f) (i - 1)) :: stk', f, h)
      | None =>
          match search stk' c with
          | Some (s, g, h) => Some (f :: s, g, h)
          | None => None
          end
      end
  end.

(** The same from the context below a given one (`signal
    instantiateNextHandlerFrom: self context', ExcHandling.st:371, 385). *)
Fixpoint search_below (id : nat) (stk : list frame) (c : eclass)
  : option (list frame * frame * expr) :=
  match stk with
  | [] => None
  | f :: stk' =>
      match (if Nat.eqb (f_id f) id then search stk' c else search_below id stk' c) with
      | Some (s, g, h) => Some (f :: s, g, h)
      | None => None
      end
  end.

(** resetHandler (ExcHandling.st:541-547): puts back the state of the context. *)
Definition reset_handler (id : nat) (a : Z) (stk : list frame) : list frame :=
  map (fun f => if Nat.eqb (f_id f) id then put_active f a else f) stk.

(** resetAllHandlers (ExcHandling.st:126-133, BlkClosure.st:49-52). *)
Definition reset_all (stk : list frame) : list frame :=
  map (fun f => put_active f 0) stk.

(** The context of a given identity. *)
Definition context_of (id : nat) (stk : list frame) : option frame :=
  find (fun f => Nat.eqb (f_id f) id) stk.

(** What the evaluation of an expression leads to: a value, a jump to a context
    (which then answers the value), or an end. *)
Inductive res :=
| Got (v : value)
| Jump (target : nat) (v : value)
| End_ (e : ending).

(** Evaluation.  [lv] is the number of the next context, larger than those of
    all contexts in being; [stk] the contexts of on:do:, innermost first; [vars]
    the exceptions the block sees; [log] what has been written.  [None] is
    exhausted fuel. *)
Fixpoint run (fuel lv : nat) (stk : list frame) (vars : list exc) (e : expr)
    (log : list Z) {struct fuel} : option (res * list frame * list Z) :=
  match fuel with
  | O => None
  | S fuel =>
    (* activateHandler: (ExcHandling.st:503-521) once a handler is found *)
    let activate resume stk f h c log :=
      let x := Exc c (f_id f) (f_active f) lv in
      match run fuel (S lv) stk (x :: f_vars f) h log with
      | Some (Got v, stk, log) =>
          if (resume : bool)
          then Some (Got v, reset_handler (f_id f) (f_active f) stk, log)
          else Some (Jump (f_id f) v, stk, log)
      | Some (Jump t v, stk, log) =>
          if Nat.eqb t lv
          then Some (Got v, reset_handler (f_id f) (f_active f) stk, log)
          else Some (Jump t v, stk, log)
      | r => r
      end in
    (* instantiateDefaultHandler and activateHandler: (ExcHandling.st:345-354) *)
    let default c stk log :=
      if default_answers c then Some (Got None, stk, log)
      else Some (End_ (Unhandled c), stk, log) in
    match e with
    | Val v => Some (Got v, stk, log)
    | Say n => Some (Got None, stk, log ++ [n])
    | If_said n a b =>
        if existsb (Z.eqb n) log then run fuel lv stk vars a log
        else run fuel lv stk vars b log
    | Seq a b =>
        match run fuel lv stk vars a log with
        | Some (Got _, stk, log) => run fuel lv stk vars b log
        | r => r
        end
    | Signal c =>
        match search stk c with
        | Some (stk, f, h) => activate false stk f h c log
        | None => default c stk log
        end
    | On_do body hs =>
        match run fuel (S lv) (Frame lv hs 0 body vars :: stk) vars body log with
        | Some (Jump t v, stk, log) =>
            if Nat.eqb t lv then Some (Got v, tl stk, log)
            else Some (Jump t v, tl stk, log)
        | Some (r, stk, log) => Some (r, tl stk, log)
        | None => None
        end
    | Ensure body fin =>
        match run fuel lv stk vars body log with
        | Some (End_ x, stk, log) => Some (End_ x, stk, log)
        | Some (r, stk, log) =>
            match run fuel lv stk vars fin log with
            | Some (Got _, stk, log) => Some (r, stk, log)
            | r => r
            end
        | None => None
        end
    | Ex_return k a =>
        match nth_error vars k with
        | None => Some (End_ Meaningless, stk, log)
        | Some x =>
            match run fuel lv stk vars a log with
            | Some (Got v, stk, log) => Some (Jump (x_context x) v, reset_all stk, log)
            | r => r
            end
        end
    | Ex_resume k a =>
        match nth_error vars k with
        | None => Some (End_ Meaningless, stk, log)
        | Some x =>
            match run fuel lv stk vars a log with
            | Some (Got v, stk, log) =>
                if resumable (x_class x)
                then Some (Jump (x_resume x) v,
                           reset_handler (x_context x) (x_previous x) stk, log)
                else Some (End_ (Not_resumable (x_class x)), stk, log)
            | r => r
            end
        end
    | Ex_outer k =>
        match nth_error vars k with
        | None => Some (End_ Meaningless, stk, log)
        | Some x =>
            match search_below (x_context x) stk (x_class x) with
            | Some (stk, f, h) => activate true stk f h (x_class x) log
            | None => default (x_class x) stk log
            end
        end
    | Ex_pass k =>
        match nth_error vars k with
        | None => Some (End_ Meaningless, stk, log)
        | Some x =>
            match
              match search_below (x_context x) stk (x_class x) with
              | Some (stk, f, h) => activate true stk f h (x_class x) log
              | None => default (x_class x) stk log
              end
            with
            | Some (Got v, stk, log) => Some (Jump (x_context x) v, reset_all stk, log)
            | r => r
            end
        end
    | Ex_retry k =>
        match nth_error vars k with
        | None => Some (End_ Meaningless, stk, log)
        | Some x =>
            match context_of (x_context x) stk with
            | None => Some (End_ Meaningless, stk, log)
            | Some f =>
                match run fuel (S lv) (reset_all stk) (f_vars f) (f_body f) log with
                | Some (Got v, stk, log) => Some (Jump (x_context x) v, reset_all stk, log)
                | r => r
                end
            end
        end
    end
  end.

(** A statement, executed on its own: how it ends and what it has written. *)
Definition execute (fuel : nat) (p : expr) : option (ending * list Z) :=
  match run fuel 0 [] [] p [] with
  | Some (Got v, _, log) => Some (Answers v, log)
  | Some (End_ x, _, log) => Some (x, log)
  | Some (Jump _ _, _, log) => Some (Meaningless, log)
  | None => None
  end.
