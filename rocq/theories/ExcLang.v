(** Programs that use exceptions.

    Models the messages of kernel/ExcHandling.st:249-543 and
    kernel/BlkClosure.st:186-274 that a program sends to signal and to handle
    exceptions.  Everything else a method may do is reduced to answering a
    value, to writing to the Transcript and to testing what has been written. *)
From Coq Require Import List ZArith Bool.
From Verif Require Import Base.
Import ListNotations.
Local Open Scope nat_scope.

(** A class of exceptions: the numbers of the class, of its superclass and so
    on, up to and not including Exception.  Models the chain followed by
    `superclass' (ExcHandling.st:183-203); [[]] is Exception.  Simplified:
    classes are their paths. *)
Definition eclass := list nat.

(** Exception (ExcHandling.st:110), Error (SysExcept.st:34), Notification
    (SysExcept.st:58), Warning (SysExcept.st:91) and two subclasses of Error. *)
Definition Exception_class : eclass := [].
Definition Error_class : eclass := [0].
Definition Notification_class : eclass := [1].
Definition Warning_class : eclass := [0; 1].
Definition ZeroDivide_class : eclass := [0; 0].
Definition NotFound_class : eclass := [1; 0].

(** The class just below Exception a class descends from. *)
Fixpoint family (c : eclass) : option nat :=
  match c with
  | [] => None
  | [n] => Some n
  | _ :: s => family s
  end.

(** isResumable (ExcHandling.st:235-240, SysExcept.st:47-53, 73-78): errors are
    not, everything else is. *)
Definition resumable (c : eclass) : bool :=
  match family c with
  | Some 0 => false
  | _ => true
  end.

(** Whether defaultAction resumes with nil (SysExcept.st:80-86): that of
    notifications does, others end the statement (ExcHandling.st:242-247). *)
Definition default_answers (c : eclass) : bool :=
  match family c with
  | Some 1 => true
  | _ => false
  end.

(** What stands before `do:': a class, or an ExceptionSet (ExcHandling.st:38-105). *)
Inductive selector :=
| Class (c : eclass)
| Set_of (cs : list eclass).

(** Values: [None] is nil. *)
Definition value := option Z.

(** Expressions.  Blocks are the expressions in them.  The argument of a handler
    block is named by the number of handler blocks between its use and it (0 is
    that of the innermost one). *)
Inductive expr :=
| Val (v : value)                       (** a literal *)
| Say (n : Z)                           (** Transcript show: n; answers nil *)
| If_said (n : Z) (a b : expr)          (** tests a variable that [Say] assigns *)
| Seq (a b : expr)                      (** a. b *)
| Signal (c : eclass)                   (** c new signal (ExcHandling.st:249-255) *)
| On_do (body : expr) (hs : list (selector * expr))
                                        (** [body] on: s1 do: [h1] on: ... (BlkClosure.st:186-243) *)
| Ensure (body fin : expr)              (** [body] ensure: [fin] (BlkClosure.st:264-274) *)
| Ex_return (k : nat) (a : expr)        (** e return: a (ExcHandling.st:493-501) *)
| Ex_resume (k : nat) (a : expr)        (** e resume: a (ExcHandling.st:418-430) *)
| Ex_outer (k : nat)                    (** e outer (ExcHandling.st:356-372) *)
| Ex_pass (k : nat)                     (** e pass (ExcHandling.st:374-386) *)
| Ex_retry (k : nat).                   (** e retry (ExcHandling.st:445-454) *)

(** How a program ends, as seen from outside. *)
Inductive ending :=
| Answers (v : value)       (** the statement answers this *)
| Unhandled (c : eclass)    (** the default action of an exception takes over *)
| Not_resumable (c : eclass)(** resume: sent to an exception that is not resumable *)
| Meaningless.              (** the program names a variable that does not exist *)
