(** Shared vocabulary of the models: machine words and outcomes. *)
From Coq Require Export ZArith Lia List Bool.
From Coq Require Export ZifyBool ZifyNat.
Export ListNotations.
Open Scope Z_scope.

(** Outcome of a VM primitive: PRIM_SUCCEEDED with the value left on the stack,
    or PRIM_FAILED, after which the Smalltalk fallback body of the method runs.
    Models the protocol of libgst/prims.def:66-80 and of the INT_BIN_OP macro,
    libgst/prims.def:83-103. *)
Inductive prim (A : Type) : Type :=
| Succeeded (a : A)
| Failed.
Arguments Succeeded {A} a.
Arguments Failed {A}.

(** Outcome of a C function that may leave the defined semantics of C (an
    out-of-bounds access, an oversized shift count ...), or call abort().
    Not a definition of the code: it makes undefined behaviour visible. *)
Inductive outcome (A : Type) : Type :=
| Ok (a : A)
| Err            (* the operation is refused and reported to the caller *)
| UB             (* undefined behaviour *)
| Abort          (* abort() is called: the VM dies *)
| OutOfFuel.     (* the model's recursion bound was reached: excluded by theorems *)
Arguments Ok {A} a.
Arguments Err {A}.
Arguments UB {A}.
Arguments Abort {A}.
Arguments OutOfFuel {A}.

(** Value of a 64-bit register read as a signed intptr_t (two's complement, as
    GCC defines conversions and as the inline assembly of
    libgst/interp.inl:116-158 computes). *)
Definition wrap64 (x : Z) : Z := (x + 2 ^ 63) mod 2 ^ 64 - 2 ^ 63.

(** The same register read as an unsigned uintptr_t / size_t. *)
Definition uwrap64 (x : Z) : Z := x mod 2 ^ 64.

(** Signed and unsigned 32-bit C integers (int, unsigned int; used e.g. by
    libgst/dict.inl:1290-1580). *)
Definition wrap32 (x : Z) : Z := (x + 2 ^ 31) mod 2 ^ 32 - 2 ^ 31.
Definition uwrap32 (x : Z) : Z := x mod 2 ^ 32.

Ltac Zify.zify_post_hook ::= Z.div_mod_to_equations.

(** Sequencing of outcomes. Vocabulary, not code. *)
Definition obind {A B} (x : outcome A) (f : A -> outcome B) : outcome B :=
  match x with
  | Ok a => f a | Err => Err | UB => UB | Abort => Abort | OutOfFuel => OutOfFuel
  end.
Notation "'olet' x ':=' e 'in' f" := (obind e (fun x => f))
  (at level 200, x pattern, e at level 100, f at level 200, right associativity).
